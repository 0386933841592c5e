(** C43, C44: lists *)
From Coq Require Import List Bool Arith NArith Lia.
From Verif.Base Require Import Str StrFacts PyText.
From Verif.Model Require Import ListTag XhtmlList.
From Verif.Spec Require Import ListTag.
From Verif.Proof Require Import ListTag XhtmlList.
Import ListNotations.

(** Every text has one layout. *)
Theorem C43_layout x : exists pre bs, layout (split_c 10%N x) pre bs /\ forall pre' bs', layout (split_c 10%N x) pre' bs' -> pre' = pre /\ bs' = bs.
Proof. destruct (layout_total (split_c 10%N x)) as (pre & bs & L). exists pre, bs. split; auto. intros pre' bs'. now apply layout_unique. Qed.

Lemma parse_lines x pre bs : layout (split_c 10%N x) pre bs ->
  map snd (parse_string_list x) = map (fun b => strip (joinl (snd b))) bs /\
  ((forall l, In l (split_c 10%N x) -> blank l -> ~ In 32%N l) -> map fst (parse_string_list x) = map (fun b => count_c 32%N (fst b)) bs).
Proof.
  intros L. unfold parse_string_list.
  assert (Pl : forall l, In l (split_c 10%N x) -> plain l) by (intros l H; apply (split_c_no_sep _ _ _ H)).
  pose proof (find_lines _ _ _ L (split_c_nonnil _ _) Pl) as F. assert (Ex : joinl (split_c 10%N x) = x) by apply join_split_c. rewrite Ex in F.
  destruct bs as [|[w [|t more]] bs]; [rewrite F; auto|contradiction|].
  destruct F as (c & p1 & p2 & post & Els & -> & Hb & Hp & Lp & Ppost & Pt & Len & ->).
  assert (Ln : length post < S (length (joinl (t :: post)))).
  { clear. assert (H : forall post t, length post <= length (joinl (t :: post))); [|specialize (H post t); lia].
    induction post0 as [|l post0 IH]; intros s; [cbn; lia|]. rewrite joinl_cons by discriminate. rewrite app_length. cbn [length]. specialize (IH l). lia. }
  destruct (items_lines (S (length (joinl (t :: post)))) t post more bs (count_c 32%N (unl p2 ++ w)) Lp Ppost Pt Ln) as [I1 (rest & I2 & I3)].
  split; [exact I1|]. intros Hs. rewrite I2. cbn [map fst].
  assert (Inc : forall l', In l' (p1 ++ p2) \/ In l' post -> In l' (split_c 10%N x)) by (intros l' H; rewrite Els, in_app_iff; destruct H; [now left|right; now right]).
  rewrite I3 by (intros; apply Hs; auto). f_equal. rewrite Forall_forall in Hb.
  apply count_blank. intros q Hq. apply Hs; [|auto]. apply Inc. left. apply in_or_app. now right.
Qed.

(** One item per line with a bullet, in order, with the text up to the next. *)
Theorem C43_items x pre bs : layout (split_c 10%N x) pre bs ->
  map snd (parse_string_list x) = map (fun b => strip (join [10%N] (snd b))) bs.
Proof. intros L. apply (parse_lines x pre bs L). Qed.

(** The level of an item is the number of spaces before its bullet.  Missing:
    texts with blank lines with spaces. *)
Theorem C43_levels_partial x pre bs : layout (split_c 10%N x) pre bs ->
  (forall l, In l (split_c 10%N x) -> spaces l -> ~ In 32%N l) ->
  map fst (parse_string_list x) = map (fun b => count_c 32%N (fst b)) bs.
Proof. intros L. apply (parse_lines x pre bs L). Qed.
(** Found: they are counted. *)
Definition spaced : str := lit "- a" ++ 10%N :: lit "    " ++ 10%N :: lit "- b".
Theorem C43_levels_refuted : ~ forall x pre bs, layout (split_c 10%N x) pre bs -> map fst (parse_string_list x) = map (fun b => count_c 32%N (fst b)) bs.
Proof.
  intros H. assert (L : layout (split_c 10%N spaced) [] [([], [lit " a"; lit "    "]); ([], [lit " b"])]).
  { change (split_c 10%N spaced) with [lit "- a"; lit "    "; lit "- b"].
    apply (lay_item [] 45%N (lit " a")); [reflexivity|right; reflexivity|]. apply lay_text; [apply bullet_at_none; reflexivity|].
    apply (lay_item [] 45%N (lit " b")); [reflexivity|right; reflexivity|constructor]. }
  specialize (H _ _ _ L). vm_compute in H. discriminate H.
Qed.

(** Line breaks in an item are replaced with the spaces around them: the words
    are kept; no line is indented; other texts are unchanged, and so is all that
    is between. *)
Theorem C43_clean x : words (clean x) = words x /\ flush_lines (clean x) /\ (flush_lines x -> clean x = x) /\
  forall a c b, x = a ++ c :: b -> rx_space c = false -> clean x = clean a ++ c :: clean b.
Proof.
  split; [apply clean_words|]. split; [apply clean_flush|]. split; [apply clean_id|]. intros a c b -> H. now apply clean_app.
Qed.

(** Levels *)
Theorem C43_normalize l : normalized l (normalize l).
Proof.
  destruct l as [|p l0]; [exists 0; split; [intros p []|split; [now left|constructor]]|]. set (l := p :: l0). destruct (min_level_spec l ltac:(discriminate)) as [A B].
  exists (min_level l). split; [intros q Hq; apply B; now apply in_map|]. split; [now right|]. unfold normalize.
  assert (G : forall k, (forall q, In q k -> min_level l <= fst q) -> Forall2 (fun p q : nat * str => snd q = snd p /\ fst p <= min_level l + 2 * fst q <= S (fst p)) k (map (fun p : nat * str => (ceil_div (fst p - min_level l) 2, snd p)) k)).
  { clear A B. induction k as [|q k IH]; intros H; constructor; [|apply IH; intros; apply H; now right]. cbn [fst snd]. split; auto. pose proof (ceil2 (fst q - min_level l)). pose proof (H q (or_introl eq_refl)). lia. }
  apply G. intros q Hq. apply B. now apply in_map.
Qed.
(** so that the lowest level is 0, levels are in the order of the indentation, and
    two more spaces are a deeper level *)
Theorem C43_order l i j v w v' w' a b c d : nth_error l i = Some (v, a) -> nth_error l j = Some (w, b) ->
  nth_error (normalize l) i = Some (v', c) -> nth_error (normalize l) j = Some (w', d) ->
  c = a /\ d = b /\ (v <= w -> v' <= w') /\ (v + 2 <= w -> v' < w') /\ (v = 0 -> v' = 0).
Proof.
  intros Hi Hj Hi' Hj'. destruct (C43_normalize l) as (m & Lo & _ & F).
  assert (G : forall k p q, nth_error l k = Some p -> nth_error (normalize l) k = Some q -> snd q = snd p /\ fst p <= m + 2 * fst q <= S (fst p) /\ m <= fst p).
  { intros k p q Hp Hq. assert (M : m <= fst p) by (apply Lo; eapply nth_error_In; eauto). clear - F Hp Hq M. revert k Hp Hq. induction F as [|x y l l' H F IH]; intros [|k] Hp Hq; cbn [nth_error] in *; try discriminate; [|eapply IH; eauto].
    injection Hp as ->. injection Hq as ->. destruct H. auto. }
  destruct (G i _ _ Hi Hi') as (A1 & A2 & A3). destruct (G j _ _ Hj Hj') as (B1 & B2 & B3). cbn [fst snd] in *. split; auto. split; auto. lia.
Qed.
Theorem C43_lowest l : l <> [] -> In 0 (map fst (normalize l)).
Proof.
  intros N. destruct (min_level_spec l N) as [A _]. apply in_map_iff in A. destruct A as (p & E & I). apply in_map_iff. exists (ceil_div (fst p - min_level l) 2, snd p).
  split; [cbn [fst]; rewrite E, Nat.sub_diag; reflexivity|]. unfold normalize. apply in_map_iff. exists p. auto.
Qed.
(** Found: the first item need not be at level 0. *)
Theorem C43_first_refuted : ~ forall x v t r, list_items x = (v, t) :: r -> v = 0.
Proof.
  intros H. specialize (H (lit "  - a" ++ 10%N :: lit "- b") 1 (lit "a") [(0, lit "b")] ltac:(vm_compute; reflexivity)). discriminate.
Qed.
(** Found: items with different indentation can be at the same level. *)
Theorem C43_deeper_refuted : ~ forall l i j v w v' w' a b c d, nth_error l i = Some (v, a) -> nth_error l j = Some (w, b) ->
  nth_error (normalize l) i = Some (v', c) -> nth_error (normalize l) j = Some (w', d) -> v < w -> v' < w'.
Proof.
  intros H. specialize (H [(0, lit "a"); (1, lit "b"); (2, lit "c")] 1 2 1 2 1 1 (lit "b") (lit "c") (lit "b") (lit "c") eq_refl eq_refl eq_refl eq_refl ltac:(lia)). lia.
Qed.

(** The items of a list tag *)
Theorem C43_list x pre bs : layout (split_c 10%N x) pre bs ->
  Forall2 (fun b it => words (snd it) = words (strip (join [10%N] (snd b))) /\ flush_lines (snd it)) bs (list_items x).
Proof.
  intros L. unfold list_items. pose proof (C43_items x pre bs L) as E. revert E. generalize (parse_string_list x) as l. intros l E.
  assert (E2 : map snd (normalize (clean_string_list l)) = map (fun b => clean (strip (join [10%N] (snd b)))) bs).
  { unfold normalize, clean_string_list. rewrite !map_map. cbn [snd]. rewrite <- (map_map snd clean l), E, map_map. reflexivity. }
  revert E2. generalize (normalize (clean_string_list l)) as l'. clear. induction bs as [|b bs IH]; intros [|it l'] E; try discriminate; [constructor|].
  cbn [map] in E. injection E as E1 E2. constructor; [|auto]. rewrite E1. split; [apply clean_words|apply clean_flush].
Qed.

Definition ex_list : str := lit "Intro" ++ 10%N :: lit "- one" ++ 10%N :: lit "    more" ++ 10%N :: lit "  * two - three" ++ 10%N :: lit "- four".
Example C43_ex : layout (split_c 10%N ex_list) [lit "Intro"] [([], [lit " one"; lit "    more"]); (lit "  ", [lit " two - three"]); ([], [lit " four"])] /\
  list_items ex_list = [(0, lit "one more"); (1, lit "two - three"); (0, lit "four")].
Proof.
  split; [|vm_compute; reflexivity].
  assert (Nb : forall l, bullet_at l = None -> ~ bullet_line l) by (intros l; apply bullet_at_none).
  change (split_c 10%N ex_list) with [lit "Intro"; lit "- one"; lit "    more"; lit "  " ++ 42%N :: lit " two - three"; lit "- four"].
  apply lay_text; [apply Nb; reflexivity|]. apply (lay_item [] 45%N (lit " one")); [reflexivity|right; reflexivity|]. apply lay_text; [apply Nb; reflexivity|].
  apply (lay_item (lit "  ") 42%N (lit " two - three")); [reflexivity|left; reflexivity|]. apply (lay_item [] 45%N (lit " four")); [reflexivity|right; reflexivity|constructor].
Qed.

(** C44.  Items are kept in order, each at the depth of the open list of its
    level. *)
Theorem C44_order {A} (l : list (nat * A)) : map snd (layout_of (xhtml_list l)) = map snd l.
Proof.
  rewrite xhtml_list_layout. assert (H : length (depths [] (map fst l)) = length (map snd l)) by (rewrite depths_length, !map_length; reflexivity).
  revert H. generalize (depths [] (map fst l)) (map snd l). clear. induction l as [|x l IH]; intros [|y m] H; try discriminate; auto. cbn. f_equal. apply IH. cbn in H. lia.
Qed.
Theorem C44_depth {A} (l : list (nat * A)) : map fst (layout_of (xhtml_list l)) = depths [] (map fst l).
Proof.
  rewrite xhtml_list_layout. assert (H : length (depths [] (map fst l)) = length (map snd l)) by (rewrite depths_length, !map_length; reflexivity).
  revert H. generalize (depths [] (map fst l)) (map snd l). clear. induction l as [|x l IH]; intros [|y m] H; try discriminate; auto. cbn. f_equal. apply IH. cbn in H. lia.
Qed.
(** The depth of an item is its level.  Missing: levels that go up by more than one
    at a time, or below the first. *)
Theorem C44_shape_partial {A} v (x : A) l : steps v v (map fst l) ->
  map fst (layout_of (xhtml_list ((v, x) :: l))) = map (fun w => w - v) (v :: map fst l).
Proof.
  intros H. rewrite C44_depth. cbn [map fst depths upto length]. f_equal; [lia|]. pose proof (depths_steps v (map fst l) v ltac:(lia) H) as D. rewrite Nat.sub_diag in D. exact D.
Qed.
(** Found: after a step of two levels, an item of the level between is nested
    deeper than the item before. *)
Theorem C44_shape_refuted : ~ forall (l : list (nat * str)) i j v w x y d e, nth_error l i = Some (v, x) -> nth_error l j = Some (w, y) ->
  nth_error (map fst (layout_of (xhtml_list l))) i = Some d -> nth_error (map fst (layout_of (xhtml_list l))) j = Some e -> v < w -> d < e.
Proof.
  intros H. specialize (H [(0, lit "a"); (2, lit "b"); (1, lit "c")] 2 1 1 2 (lit "c") (lit "b") 2 1 eq_refl eq_refl eq_refl eq_refl ltac:(lia)). lia.
Qed.
(** Found: an item of a lower level than the first is nested in it. *)
Theorem C44_lower_refuted : ~ forall (l : list (nat * str)) v x r w y, l = (v, x) :: r -> In (w, y) r -> w <= v -> In (0, y) (layout_of (xhtml_list l)).
Proof.
  intros H. specialize (H [(1, lit "a"); (0, lit "b")] 1 (lit "a") _ 0 (lit "b") eq_refl ltac:(now left) ltac:(lia)).
  vm_compute in H. destruct H as [H|[H|[]]]; discriminate H.
Qed.
Example C44_ex : layout_of (xhtml_list [(0, lit "a"); (1, lit "b"); (2, lit "c"); (1, lit "d"); (0, lit "e")]) = [(0, lit "a"); (1, lit "b"); (2, lit "c"); (1, lit "d"); (0, lit "e")] /\
  steps 0 0 [1; 2; 1; 0].
Proof. split; [reflexivity|cbn; lia]. Qed.
(** Found: with four spaces of indentation the third item is in a list of the
    second. *)
Example C44_found : layout_of (xhtml_list (list_items (lit "- a" ++ 10%N :: lit "    - b" ++ 10%N :: lit "  - c"))) = [(0, lit "a"); (1, lit "b"); (2, lit "c")].
Proof. vm_compute. reflexivity. Qed.

(** ** From the text to the lists *)
Lemma written_layout l : layout (map written_item l) [] (map (fun p => (repeat 32%N (2 * fst p), [32%N :: snd p])) l).
Proof.
  induction l as [|[v t] l IH]; [constructor|]. cbn [map fst snd].
  change (written_item (v, t)) with (repeat 32%N (2 * v) ++ 45%N :: 32%N :: t).
  apply lay_item; [|right; reflexivity|exact IH]. unfold spaces. clear. induction (2 * v) as [|n IH]; [reflexivity|exact IH].
Qed.
Lemma written_lines l : l <> [] -> (forall p, In p l -> item_text (snd p)) -> split_c 10%N (written_list l) = map written_item l.
Proof.
  intros Hl H. apply split_c_join; [destruct l; [congruence|discriminate]|]. intros w Hw. apply in_map_iff in Hw as (p & <- & Hp).
  unfold written_item. intros I. apply in_app_iff in I as [I|I]; [apply repeat_spec in I; discriminate|].
  apply in_app_iff in I as [I|I]; [cbn in I; intuition discriminate|]. exact (proj1 (H p Hp) I).
Qed.
Lemma pairs_eq {A B} (l m : list (A * B)) : map fst l = map fst m -> map snd l = map snd m -> l = m.
Proof.
  revert m. induction l as [|[a b] l IH]; intros [|[c d] m] H1 H2; try discriminate; [reflexivity|].
  cbn in H1, H2. f_equal; [congruence|apply IH; congruence].
Qed.
Lemma count_spaces n : count_c 32%N (repeat 32%N n) = n.
Proof. induction n as [|n IH]; [reflexivity|]. cbn [repeat]. unfold count_c in *. cbn. now rewrite IH. Qed.
Lemma strip_space t : strip (32%N :: t) = strip t.
Proof. reflexivity. Qed.
Lemma written_parse l : l <> [] -> (forall p, In p l -> item_text (snd p)) ->
  parse_string_list (written_list l) = map (fun p => (2 * fst p, snd p)) l.
Proof.
  intros Hl H. pose proof (written_layout l) as L. rewrite <- (written_lines l Hl H) in L. apply pairs_eq.
  - rewrite (C43_levels_partial _ _ _ L).
    + rewrite !map_map. apply map_ext. intros p. cbn [fst]. apply count_spaces.
    + intros x Hx. rewrite (written_lines l Hl H) in Hx. apply in_map_iff in Hx as (p & <- & _). unfold spaces, written_item.
      rewrite !forallb_app. change (forallb rx_space (lit "- ")) with false. cbn [andb]. rewrite andb_false_r. discriminate.
  - rewrite (C43_items _ _ _ L), !map_map. apply map_ext_in. intros p Hp. cbn [snd join]. rewrite strip_space. exact (proj2 (H p Hp)).
Qed.
(** The items of a list that is written with two spaces for each level, from level 0, have these levels and texts. *)
Theorem C43_written l : In 0 (map fst l) -> (forall p, In p l -> item_text (snd p)) -> list_items (written_list l) = l.
Proof.
  intros H0 H. assert (Hl : l <> []) by (intros ->; destruct H0). unfold list_items. rewrite written_parse by assumption.
  assert (E : clean_string_list (map (fun p => (2 * fst p, snd p)) l) = map (fun p => (2 * fst p, snd p)) l).
  { unfold clean_string_list. rewrite map_map. apply map_ext_in. intros p Hp. cbn [fst snd]. f_equal.
    destruct (C43_clean (snd p)) as (_ & _ & C & _). apply C. intros a c b E. exfalso. apply (proj1 (H p Hp)). rewrite E. apply in_or_app. right. now left. }
  rewrite E. destruct (C43_normalize (map (fun p => (2 * fst p, snd p)) l)) as (m & Lo & _ & F).
  assert (m = 0).
  { apply in_map_iff in H0 as (p & E0 & Hp). specialize (Lo (2 * fst p, snd p) ltac:(apply in_map_iff; now exists p)). cbn [fst] in Lo. lia. }
  subst m. revert F. generalize (normalize (map (fun p => (2 * fst p, snd p)) l)) as l'. clear. induction l as [|[v t] l IH]; intros l' F; inversion F as [|? q ? r [Q1 Q2] F']; subst; [reflexivity|].
  f_equal; [|now apply IH]. destruct q as [v' t']. cbn [fst snd] in *. subst t'. f_equal. lia.
Qed.
(** In html, they are at the depths of their levels. *)
Theorem C44_written t l : (forall p, In p ((0, t) :: l) -> item_text (snd p)) -> steps 0 0 (map fst l) ->
  layout_of (xhtml_list (list_items (written_list ((0, t) :: l)))) = (0, t) :: l.
Proof.
  intros H S. rewrite C43_written; [|now left|exact H]. apply pairs_eq.
  - rewrite C44_shape_partial by exact S. change (map fst ((0, t) :: l)) with (0 :: map fst l). transitivity (map (fun w => w) (0 :: map fst l)); [apply map_ext; intros w; apply Nat.sub_0_r|apply map_id].
  - apply C44_order.
Qed.
Example C44_written_ex : let l := [(1, lit "b c"); (2, lit "- d"); (1, lit "e"); (0, lit "f")] in
  (forall p, In p ((0, lit "a") :: l) -> item_text (snd p)) /\ steps 0 0 (map fst l) /\
  written_list ((0, lit "a") :: l) = lit "- a" ++ [10%N] ++ lit "  - b c" ++ [10%N] ++ lit "    - - d" ++ [10%N] ++ lit "  - e" ++ [10%N] ++ lit "- f".
Proof.
  split; [|split; [cbn; lia|reflexivity]]. intros p I. cbn [In] in I.
  repeat (destruct I as [<-|I]; [split; [cbn; intuition discriminate|reflexivity]|]). destruct I.
Qed.
