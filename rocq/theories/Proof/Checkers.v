From Coq Require Import List Bool Arith Lia NArith.
From Verif.Base Require Import Str StrFacts Result.
From Verif.Model Require Import Checkers.
From Verif.Spec Require Import Checkers.
Import ListNotations.

Fixpoint dep_rect' (P : dep -> Prop) (HD : forall n a, P (Dep n a)) (HG : forall k c l, Forall P l -> P (Group k c l)) (d : dep) : P d :=
  match d with
  | Dep n a => HD n a
  | Group k c l => HG k c l ((fix go l : Forall P l := match l with nil => Forall_nil P | x :: r => Forall_cons x (dep_rect' P HD HG x) (go r) end) l)
  end.

Lemma is_true_iff a : is_true a = true <-> a = Some true.
Proof. destruct a as [[|]|]; cbn; split; congruence. Qed.
Lemma available_met d : available d = Some true <-> met (fun _ a => a = Some true) d.
Proof.
  induction d as [n a|k c l IH] using dep_rect'.
  - cbn. split; [intros ->; constructor; reflexivity|]. intros H. inversion H. assumption.
  - rewrite Forall_forall in IH. destruct k; cbn [available].
    + split.
      * intros [= E]. rewrite forallb_forall in E. constructor. intros x Hx. apply IH; [exact Hx|]. apply is_true_iff, E, Hx.
      * intros H. f_equal. apply forallb_forall. intros x Hx. apply is_true_iff, IH; [exact Hx|]. inversion H; auto.
    + split.
      * intros [= E]. apply existsb_exists in E as (x & Hx & Ex). econstructor; [exact Hx|]. apply IH; [exact Hx|]. apply is_true_iff, Ex.
      * intros H. f_equal. apply existsb_exists. inversion H as [| |c' l' x Hx Hm|]; subst. exists x. split; [exact Hx|].
        apply is_true_iff, IH; assumption.
    + split; [constructor|reflexivity].
    + split; [discriminate|]. intros H. inversion H.
Qed.
Lemma met_ext (ok ok' : str -> option bool -> Prop) d :
  (forall n a, In (n, a) (leaves d) -> ok n a -> ok' n a) -> met ok d -> met ok' d.
Proof.
  intros Hle H. induction H as [n a H|c l H IH|c l x Hx H IH|c l].
  - constructor. apply Hle; [left; reflexivity|exact H].
  - constructor. intros x Hx. apply IH; [exact Hx|]. intros n a Hi. apply Hle. apply in_flat_map. eauto.
  - econstructor; [exact Hx|]. apply IH. intros n a Hi. apply Hle. apply in_flat_map. eauto.
  - constructor.
Qed.
Lemma met_answered ok f d : met ok (answered f d) <-> met (fun n a => ok n (f n a)) d.
Proof.
  induction d as [n a|k c l IH] using dep_rect'.
  - cbn. split; intros H; inversion H; constructor; assumption.
  - rewrite Forall_forall in IH. cbn [answered]. split; intros H; inversion H as [|c' l' Hl|c' l' x Hx Hm|]; subst.
    + constructor. intros x Hx. apply IH; [exact Hx|]. apply Hl, in_map, Hx.
    + apply in_map_iff in Hx as (y & <- & Hy). econstructor; [exact Hy|]. apply IH; assumption.
    + constructor.
    + constructor. intros x Hx. apply in_map_iff in Hx as (y & <- & Hy). apply IH; [exact Hy|]. apply Hl, Hy.
    + econstructor; [apply in_map; exact Hx|]. apply IH; assumption.
    + constructor.
Qed.
Lemma leaves_group k c l : leaves (Group k c l) = flat_map leaves l.
Proof. reflexivity. Qed.

Definition searched (which : str -> bool) (n : str) (a : option bool) : option bool :=
  match a with None => Some (which n) | Some b => Some b end.
Definition unchecked (d : dep) : list str :=
  map fst (filter (fun e : str * option bool => match snd e with None => true | Some _ => false end) (leaves d)).
Lemma check_exec_eq which d : check_exec which d = (answered (searched which) d, unchecked d).
Proof.
  induction d as [n [b|]|k c l IH] using dep_rect'; [reflexivity|reflexivity|].
  cbn [check_exec answered]. rewrite Forall_forall in IH. f_equal.
  - f_equal. apply map_ext_in. intros x Hx. rewrite IH by exact Hx. reflexivity.
  - unfold unchecked. rewrite leaves_group. induction l as [|x l IHl]; [reflexivity|]. cbn [flat_map].
    rewrite filter_app, map_app. f_equal; [rewrite IH by (left; reflexivity); reflexivity|].
    apply IHl. intros y Hy. apply IH. right. exact Hy.
Qed.
Lemma answered_searched_twice which which' d : answered (searched which') (answered (searched which) d) = answered (searched which) d.
Proof.
  induction d as [n [b|]|k c l IH] using dep_rect'; [reflexivity|reflexivity|]. cbn [answered]. f_equal.
  rewrite map_map. apply map_ext_in. rewrite Forall_forall in IH. exact IH.
Qed.
Lemma unchecked_searched which d : unchecked (answered (searched which) d) = [].
Proof.
  unfold unchecked. induction d as [n [b|]|k c l IH] using dep_rect'; [reflexivity|reflexivity|].
  cbn [answered leaves]. induction IH as [|x l Hx IH IHl]; [reflexivity|].
  cbn [map flat_map]. rewrite filter_app, map_app, Hx. exact IHl.
Qed.
Lemma kpse_eq found ext d : kpse found ext d = answered (fun n _ => Some (found (n ++ ext))) d.
Proof.
  induction d as [n a|k c l IH] using dep_rect'; [reflexivity|]. cbn [kpse answered]. f_equal.
  apply map_ext_in. rewrite Forall_forall in IH. exact IH.
Qed.

(** flatten *)
Lemma flatten_group level k c l :
  flatten_item level (Group k c l) =
  if Nat.ltb 16 (S level) then Raise TypeError else do r <- flatten_each (S level) l ; Ok ((level, Group k c l) :: r).
Proof.
  cbn [flatten_item]. destruct (Nat.ltb 16 (S level)); [reflexivity|].
  match goal with |- bind ?a _ = _ => replace a with (flatten_each (S level) l) end; [reflexivity|].
  generalize (S level). clear. intros n. induction l as [|x l IH]; [reflexivity|]. cbn [flatten_each].
  destruct (flatten_item n x); [|reflexivity]. cbn [bind]. rewrite IH. reflexivity.
Qed.
Definition deepest (l : list dep) : nat := fold_right (fun x m => Nat.max (depth x) m) 0 l.
Lemma flatten_item_eq d : forall level,
  flatten_item level d = if Nat.leb (level + depth d) 16 || Nat.eqb (depth d) 0 then Ok (preorder level d) else Raise TypeError.
Proof.
  induction d as [n a|k c l IH] using dep_rect'; intros level.
  - cbn [flatten_item depth preorder]. rewrite orb_true_r. reflexivity.
  - rewrite flatten_group. cbn [depth]. fold (deepest l). rewrite orb_false_r.
    assert (G : forall n, n <= 16 -> flatten_each n l = if Nat.leb (n + deepest l) 16 then Ok (flat_map (preorder n) l) else Raise TypeError).
    { intros n Hn. induction IH as [|x l Hx IH IHl].
      - cbn [flatten_each deepest fold_right flat_map]. rewrite Nat.add_0_r. rewrite (proj2 (Nat.leb_le n 16)) by exact Hn. reflexivity.
      - cbn [flatten_each deepest fold_right flat_map]. fold (deepest l). rewrite Hx, IHl.
        destruct (Nat.leb_spec (n + depth x) 16); cbn [orb].
        + cbn [bind]. destruct (Nat.leb_spec (n + deepest l) 16); cbn [bind];
            destruct (Nat.leb_spec (n + Nat.max (depth x) (deepest l)) 16); try lia; reflexivity.
        + destruct (Nat.eqb_spec (depth x) 0); [lia|]. cbn [bind].
          destruct (Nat.leb_spec (n + Nat.max (depth x) (deepest l)) 16); [lia|reflexivity]. }
    destruct (Nat.ltb_spec 16 (S level)).
    + destruct (Nat.leb_spec (level + S (deepest l)) 16); [lia|reflexivity].
    + rewrite G by lia. replace (S level + deepest l) with (level + S (deepest l)) by lia.
      destruct (Nat.leb (level + S (deepest l)) 16); reflexivity.
Qed.
Lemma flatten_each_eq level l :
  level <= 16 -> flatten_each level l = if Nat.leb (level + deepest l) 16 then Ok (flat_map (preorder level) l) else Raise TypeError.
Proof.
  intros Hl. induction l as [|x l IH].
  - cbn [flatten_each deepest fold_right flat_map]. rewrite Nat.add_0_r, (proj2 (Nat.leb_le level 16)) by exact Hl. reflexivity.
  - cbn [flatten_each deepest fold_right flat_map]. fold (deepest l). rewrite flatten_item_eq, IH.
    destruct (Nat.leb_spec (level + depth x) 16); cbn [orb].
    + cbn [bind]. destruct (Nat.leb_spec (level + deepest l) 16); cbn [bind];
        destruct (Nat.leb_spec (level + Nat.max (depth x) (deepest l)) 16); try lia; reflexivity.
    + destruct (Nat.eqb_spec (depth x) 0); [lia|]. cbn [bind].
      destruct (Nat.leb_spec (level + Nat.max (depth x) (deepest l)) 16); [lia|reflexivity].
Qed.

(** Checkers: each list is passed to the handler of its category *)
Definition groups (l : list dep) : Prop := forall x, In x l -> exists k c sub, x = Group k c sub.
Lemma on_category_at key f pre k sub post :
  ~ In key (map label pre) ->
  on_category key f (pre ++ Group k key sub :: post) = do s <- f sub ; Ok (pre ++ Group k key s :: post).
Proof.
  induction pre as [|x pre IH]; intros Hn; cbn [app on_category].
  - rewrite eqb_refl. reflexivity.
  - cbn [map] in Hn. rewrite (proj2 (eqb_neq (label x) key)) by (intros E; apply Hn; left; exact E).
    rewrite IH by (intros Hi; apply Hn; right; exact Hi). destruct (f sub); reflexivity.
Qed.
Lemma run_checks_groups handlers (F : str -> list dep -> result (list dep)) (post : list dep) : forall pre l',
  groups post -> NoDup (map label (pre ++ post)) ->
  (forall x, In x post -> handlers (label x) = Some (on_category (label x) (F (label x)))) ->
  run_checks handlers (categories post) (pre ++ post) = Ok l' ->
  exists post', l' = pre ++ post' /\
    Forall2 (fun x y => exists k c sub sub', x = Group k c sub /\ F c sub = Ok sub' /\ y = Group k c sub') post post'.
Proof.
  induction post as [|x post IH]; intros pre l' Hg Hn Hh E.
  - cbn in E. injection E as <-. exists []. split; [reflexivity|constructor].
  - destruct (Hg x (or_introl eq_refl)) as (k & c & sub & ->). cbn [categories flat_map app] in E. fold (categories post) in E.
    cbn [run_checks] in E. pose proof (Hh (Group k c sub) (or_introl eq_refl)) as Hc. cbn [label] in Hc. rewrite Hc in E.
    assert (Hni : ~ In c (map label pre)).
    { rewrite map_app in Hn. cbn [map label] in Hn. apply NoDup_remove_2 in Hn. intros Hi. apply Hn, in_or_app. left. exact Hi. }
    rewrite on_category_at in E by exact Hni. destruct (F c sub) as [sub'|e] eqn:Ef; [|discriminate]. cbn [bind] in E.
    replace (pre ++ Group k c sub' :: post) with ((pre ++ [Group k c sub']) ++ post) in E by (rewrite <- app_assoc; reflexivity).
    destruct (IH (pre ++ [Group k c sub']) l') as (post' & -> & HF).
    + intros y Hy. apply Hg. right. exact Hy.
    + rewrite <- app_assoc. rewrite map_app in *. exact Hn.
    + intros y Hy. apply Hh. right. exact Hy.
    + exact E.
    + exists (Group k c sub' :: post'). split; [rewrite <- app_assoc; reflexivity|].
      constructor; [|exact HF]. exists k, c, sub, sub'. auto.
Qed.
Lemma run_checks_total handlers (F : str -> list dep -> result (list dep)) (post : list dep) : forall pre,
  groups post -> NoDup (map label (pre ++ post)) ->
  (forall x, In x post -> handlers (label x) = Some (on_category (label x) (F (label x)))) ->
  (forall c sub, exists sub', F c sub = Ok sub') ->
  exists l', run_checks handlers (categories post) (pre ++ post) = Ok l'.
Proof.
  induction post as [|x post IH]; intros pre Hg Hn Hh Ht; [eexists; reflexivity|].
  destruct (Hg x (or_introl eq_refl)) as (k & c & sub & ->). cbn [categories flat_map app]. fold (categories post).
  cbn [run_checks]. pose proof (Hh (Group k c sub) (or_introl eq_refl)) as Hc. cbn [label] in Hc. rewrite Hc.
  assert (Hni : ~ In c (map label pre)).
  { rewrite map_app in Hn. cbn [map label] in Hn. apply NoDup_remove_2 in Hn. intros Hi. apply Hn, in_or_app. left. exact Hi. }
  rewrite on_category_at by exact Hni. destruct (Ht c sub) as [sub' ->]. cbn [bind].
  replace (pre ++ Group k c sub' :: post) with ((pre ++ [Group k c sub']) ++ post) by (rewrite <- app_assoc; reflexivity).
  apply IH.
  - intros y Hy. apply Hg. right. exact Hy.
  - rewrite <- app_assoc. rewrite map_app in *. exact Hn.
  - intros y Hy. apply Hh. right. exact Hy.
  - exact Ht.
Qed.
(** The answer is right if that of each handler is. *)
Lemma check_met handlers F (ok : str -> str -> Prop) name l l' b :
  groups l -> NoDup (map label l) ->
  (forall x, In x l -> handlers (label x) = Some (on_category (label x) (F (label x)))) ->
  (forall k c sub sub', In (Group k c sub) l -> F c sub = Ok sub' ->
     (available (Group k c sub') = Some true <-> met (fun n _ => ok c n) (Group k c sub))) ->
  check handlers name l = Ok (l', b) ->
  (b = Some true <-> forall k c sub, In (Group k c sub) l -> met (fun n _ => ok c n) (Group k c sub)).
Proof.
  intros Hg Hn Hh Hf E. unfold check in E.
  destruct (run_checks handlers (categories l) l) as [l1|] eqn:Er; [|discriminate]. cbn [bind] in E.
  assert (El : l1 = l') by congruence. assert (Eb : available (Group KAll name l1) = b) by congruence. clear E. subst l1 b.
  destruct (run_checks_groups handlers F l [] l' Hg Hn Hh Er) as (post' & -> & HF). cbn [app].
  cbn [available]. transitivity (forallb (fun x => is_true (available x)) post' = true); [split; congruence|].
  clear Hg Hn Hh Er. induction HF as [|x y l l' Hxy HF IH].
  - cbn. split; [intros _ ? ? ? []|reflexivity].
  - destruct Hxy as (k & c & sub & sub' & -> & Ef & ->). cbn [forallb]. rewrite andb_true_iff, is_true_iff.
    rewrite (Hf k c sub sub' (or_introl eq_refl) Ef). rewrite IH by (intros k' c' s s' Hi; apply Hf; right; exact Hi).
    split.
    + intros [H1 H2] k' c' s [[= <- <- <-]|Hi]; [exact H1|exact (H2 k' c' s Hi)].
    + intros H. split; [apply H; left; reflexivity|]. intros k' c' s Hi. apply H. right. exact Hi.
Qed.
Lemma fresh_met (ok : str -> option bool -> Prop) (ok' : str -> Prop) d :
  fresh d -> (forall n, ok n None <-> ok' n) -> (met ok d <-> met (fun n _ => ok' n) d).
Proof.
  intros Hf Hok. split; apply met_ext; intros n a Hi; rewrite (Hf n a Hi); apply Hok.
Qed.

(** ** Versions *)
Lemma take_run_app p s r : (forall c, In c s -> p c = true) -> (match r with c :: _ => p c = false | [] => True end) ->
  take_run p (s ++ r) = s /\ drop_run p (s ++ r) = r.
Proof.
  intros Hs Hr. induction s as [|c s IH]; cbn [app take_run drop_run].
  - destruct r as [|c r]; [auto|]. cbn [take_run drop_run]. rewrite Hr. auto.
  - rewrite (Hs c) by (left; reflexivity). destruct IH as [I1 I2]; [intros x Hx; apply Hs; right; exact Hx|].
    split; [f_equal; exact I1|exact I2].
Qed.
Lemma drop_run_none p s : (match s with c :: _ => p c = false | [] => True end) -> drop_run p s = s.
Proof. destruct s as [|c s]; [reflexivity|]. intros E. cbn [drop_run]. rewrite E. reflexivity. Qed.
Lemma numeral_digits s n : numeral s n -> s <> [] /\ (forall c, In c s -> digit c = true).
Proof.
  assert (Hd : forall c, (48 <= c <= 57)%N -> digit c = true).
  { intros c [H1 H2]. unfold digit. apply andb_true_iff. split; apply N.leb_le; assumption. }
  intros H. induction H as [c Hc|s n c H IH Hc].
  - split; [discriminate|]. intros x [<-|[]]. apply Hd, Hc.
  - split; [destruct s; discriminate|]. intros x Hx. apply in_app_or in Hx as [Hx|[<-|[]]]; [apply IH, Hx|apply Hd, Hc].
Qed.
Lemma int_of_numeral s n : numeral s n -> int_of s = Ok n.
Proof.
  intros H. assert (E : fold_left (fun a c => (10 * a + (c - 48))%N) s 0%N = n).
  { induction H as [c Hc|s n c H IH Hc]; [cbn; lia|]. rewrite fold_left_app, IH. reflexivity. }
  destruct (numeral_digits s n H) as [Hne _]. unfold int_of. destruct s; [congruence|]. rewrite E. reflexivity.
Qed.
Lemma ints_of_numerals l ns : Forall2 numeral l ns -> ints_of l = Ok ns.
Proof. induction 1 as [|s n l ns H _ IH]; [reflexivity|]. cbn [ints_of]. rewrite (int_of_numeral s n H), IH. reflexivity. Qed.
Definition version_char (c : char) : bool := digit c || N.eqb c 46.
Lemma version_parse v ns : version v ns -> v <> [] /\ (forall c, In c v -> version_char c = true) /\ ints_of (split_c 46%N v) = Ok ns.
Proof.
  intros (Hne & l & HF & ->).
  assert (Hl : l <> []) by (intros ->; inversion HF; subst; congruence).
  assert (Hd : forall w, In w l -> w <> [] /\ forall c, In c w -> digit c = true).
  { clear Hl Hne. induction HF as [|s n l ns H _ IH]; [intros ? []|]. intros w [<-|Hw]; [apply (numeral_digits s n H)|exact (IH w Hw)]. }
  split; [|split].
  - destruct l as [|w l]; [congruence|]. destruct (Hd w (or_introl eq_refl)) as [Hw _].
    destruct l; cbn [join]; destruct w; try congruence; discriminate.
  - clear HF Hl. induction l as [|w l IH]; [intros c []|].
    assert (Hw : forall c, In c w -> version_char c = true).
    { intros c Hc. unfold version_char. rewrite (proj2 (Hd w (or_introl eq_refl)) c Hc). reflexivity. }
    destruct l as [|w' l]; [exact Hw|]. intros c Hc. rewrite join_cons in Hc by discriminate.
    apply in_app_or in Hc as [Hc|Hc]; [exact (Hw c Hc)|]. apply in_app_or in Hc as [[<-|[]]|Hc]; [reflexivity|].
    apply IH; [|exact Hc]. intros x Hx. apply Hd. right. exact Hx.
  - rewrite split_c_join; [apply ints_of_numerals, HF|exact Hl|].
    intros w Hw Hi. discriminate (proj2 (Hd w Hw) 46%N Hi).
Qed.
Lemma space_not_name uw c : is_space c = true -> name_char uw c = false.
Proof.
  intros Hs. unfold name_char.
  assert (Hw : is_word uw c = false).
  { unfold is_word. destruct (N.ltb_spec c 128); [|rewrite Hs; cbn; apply andb_false_r].
    destruct (ascii_word c) eqn:E; [|reflexivity]. exfalso. revert Hs E H. clear. unfold is_space, ascii_word.
    rewrite !orb_true_iff, !andb_true_iff, !N.leb_le, !N.eqb_eq. lia. }
  rewrite Hw. cbn [orb]. destruct (N.eqb_spec c 46); [subst; discriminate|]. destruct (N.eqb_spec c 45); [subst; discriminate|]. reflexivity.
Qed.
Lemma name_chars uw n : package_name uw n -> n <> [] /\ forall c, In c n -> name_char uw c = true.
Proof.
  intros [Hn H]. split; [exact Hn|]. intros c Hc. unfold name_char.
  destruct (H c Hc) as [->|[->| ->]]; [reflexivity|apply orb_true_iff; left; apply orb_true_r|apply orb_true_r].
Qed.
Lemma operator_eq o r : (match r with c :: _ => c <> 61%N | [] => True end) -> operator (operator_text o ++ r) = (Some o, r).
Proof.
  intros Hr. destruct o; (destruct r as [|c r]; [reflexivity|]); unfold operator; cbn;
    (destruct (eqb_spec 61%N c); [congruence|]); cbn [andb]; rewrite ?andb_false_r; reflexivity.
Qed.
Lemma name_and_version_eq uw name sp o sp' v ns : package_name uw name -> version v ns ->
  (forall c, In c (sp ++ sp') -> is_space c = true) ->
  name_and_version uw (name ++ sp ++ operator_text o ++ sp' ++ v) = Ok (Some (name, Some o, Some ns)).
Proof.
  intros Hn Hv Hsp. destruct (name_chars uw name Hn) as [Hne Hnc].
  destruct (version_parse v ns Hv) as (Hve & Hvc & Hi).
  assert (Hop : exists c r, operator_text o = c :: r /\ name_char uw c = false /\ is_space c = false).
  { destruct o; eexists _, _; (split; [reflexivity|split; reflexivity]). }
  destruct Hop as (oc & orr & Eo & Ho1 & Ho2).
  unfold name_and_version.
  assert (E0 : drop_run (fun c => negb (name_char uw c)) (name ++ sp ++ operator_text o ++ sp' ++ v) = name ++ sp ++ operator_text o ++ sp' ++ v).
  { apply drop_run_none. destruct name as [|c name]; [congruence|]. cbn [app]. rewrite Hnc by (left; reflexivity). reflexivity. }
  rewrite E0. cbv zeta.
  destruct (take_run_app (name_char uw) name (sp ++ operator_text o ++ sp' ++ v)) as [T1 D1].
  { exact Hnc. }
  { destruct sp as [|c sp]; cbn [app]; [rewrite Eo; exact Ho1|]. apply space_not_name, Hsp. left. reflexivity. }
  rewrite T1, D1.
  destruct (take_run_app is_space sp (operator_text o ++ sp' ++ v)) as [_ D2].
  { intros c Hc. apply Hsp, in_or_app. left. exact Hc. }
  { rewrite Eo. exact Ho2. }
  rewrite D2.
  assert (Hvd : match v with c :: _ => is_space c = false /\ c <> 61%N | [] => False end).
  { destruct v as [|c v]; [congruence|]. pose proof (Hvc c (or_introl eq_refl)) as Hc. clear -Hc.
    unfold version_char, digit in Hc. split.
    - destruct (is_space c) eqn:E; [|reflexivity]. exfalso. revert E Hc. unfold is_space.
      rewrite !orb_true_iff, !andb_true_iff, !N.leb_le, !N.eqb_eq. lia.
    - intros ->. discriminate Hc. }
  rewrite operator_eq.
  2:{ destruct sp' as [|c sp']; cbn [app].
      - destruct v as [|c v]; [exact I|]. apply Hvd.
      - intros ->. assert (is_space 61%N = true) by (apply Hsp, in_or_app; right; left; reflexivity). discriminate. }
  destruct (take_run_app is_space sp' v) as [_ D3].
  { intros c Hc. apply Hsp, in_or_app. right. exact Hc. }
  { destruct v; [exact I|]. apply Hvd. }
  rewrite D3.
  destruct (take_run_app (fun c => digit c || N.eqb c 46) v []) as [T4 _]; [exact Hvc|exact I|].
  rewrite app_nil_r in T4. rewrite T4.
  destruct name as [|nc name]; [congruence|]. destruct v as [|vc v]; [congruence|].
  rewrite Hi. reflexivity.
Qed.
Lemma name_only uw name : package_name uw name -> name_and_version uw name = Ok (Some (name, None, None)).
Proof.
  intros Hn. destruct (name_chars uw name Hn) as [Hne Hnc]. unfold name_and_version.
  rewrite drop_run_none by (destruct name; [exact I|]; cbn; rewrite Hnc by (left; reflexivity); reflexivity).
  cbv zeta. destruct (take_run_app (name_char uw) name []) as [T D]; [exact Hnc|exact I|].
  rewrite app_nil_r in T, D. rewrite T, D. destruct name; [congruence|]. reflexivity.
Qed.

Lemma older_irrefl a b : same_version a b -> ~ older a b.
Proof. intros H (i & Hi & _). rewrite (H i) in Hi. lia. Qed.
Lemma older_asym a b : older a b -> ~ older b a.
Proof.
  intros (i & Hi & Ei) (j & Hj & Ej). destruct (lt_eq_lt_dec i j) as [[Hl| ->]|Hl].
  - rewrite (Ej i Hl) in Hi. lia.
  - lia.
  - rewrite (Ei j Hl) in Hj. lia.
Qed.
Lemma same_sym a b : same_version a b -> same_version b a.
Proof. intros H i. symmetry. apply H. Qed.
Lemma tuple_compare_spec a : forall b, length a = length b ->
  match tuple_compare a b with Eq => same_version a b | Lt => older a b | Gt => older b a end.
Proof.
  induction a as [|x a IH]; intros [|y b] Hl; try discriminate; [intros i; reflexivity|].
  injection Hl as Hl. cbn [tuple_compare]. destruct (N.compare_spec x y) as [->|Hlt|Hgt].
  - specialize (IH b Hl). destruct (tuple_compare a b).
    + intros [|i]; [reflexivity|]. apply IH.
    + destruct IH as (i & Hi & E). exists (S i). split; [exact Hi|]. intros [|j] Hj; [reflexivity|]. apply E. lia.
    + destruct IH as (i & Hi & E). exists (S i). split; [exact Hi|]. intros [|j] Hj; [reflexivity|]. apply E. lia.
  - exists 0. split; [exact Hlt|]. intros j Hj. lia.
  - exists 0. split; [exact Hgt|]. intros j Hj. lia.
Qed.
Lemma compares_holds o a b : length a = length b -> (compares o a b = true <-> version_holds o a b).
Proof.
  intros Hl. pose proof (tuple_compare_spec a b Hl) as H. unfold compares. destruct (tuple_compare a b).
  - pose proof (older_irrefl a b H) as H1. pose proof (older_irrefl b a (same_sym _ _ H)) as H2.
    destruct o; cbn [version_holds]; split; intros G; try discriminate; try reflexivity; tauto.
  - pose proof (older_asym a b H) as H1. assert (H2 : ~ same_version a b) by (intros Hs; exact (older_irrefl a b Hs H)).
    destruct o; cbn [version_holds]; split; intros G; try discriminate; try reflexivity; tauto.
  - pose proof (older_asym b a H) as H1. assert (H2 : ~ same_version a b) by (intros Hs; exact (older_irrefl b a (same_sym _ _ Hs) H)).
    destruct o; cbn [version_holds]; split; intros G; try discriminate; try reflexivity; tauto.
Qed.

(** Packages *)
Lemma pip_group uw lower fr k c l : pip uw lower fr (Group k c l) = do l' <- pip_each uw lower fr l ; Ok (Group k c l').
Proof.
  cbn [pip]. match goal with |- bind ?a _ = _ => replace a with (pip_each uw lower fr l) end; [reflexivity|].
  induction l as [|x l IH]; [reflexivity|]. cbn [pip_each]. destruct (pip uw lower fr x); [|reflexivity]. cbn [bind]. rewrite IH. reflexivity.
Qed.
Definition pip_answer uw lower fr (n : str) (a : option bool) : option bool :=
  match pip_found uw lower fr n with Ok true => Some true | _ => a end.
Lemma pip_eq uw lower fr d : forall d', pip uw lower fr d = Ok d' -> d' = answered (pip_answer uw lower fr) d.
Proof.
  induction d as [n a|k c l IH] using dep_rect'; intros d' E.
  - cbn [pip answered] in *. unfold pip_answer. destruct (pip_found uw lower fr n) as [[|]|]; [| |discriminate]; cbn [bind] in E; congruence.
  - rewrite pip_group in E. cbn [answered].
    assert (G : forall l', pip_each uw lower fr l = Ok l' -> l' = map (answered (pip_answer uw lower fr)) l).
    { clear E. induction IH as [|x l Hx IH IHl]; intros l' E; cbn [pip_each map] in *; [congruence|].
      destruct (pip uw lower fr x) as [y|]; [|discriminate]. cbn [bind] in E.
      destruct (pip_each uw lower fr l) as [r|]; [|discriminate]. cbn [bind] in E.
      injection E as <-. f_equal; [apply Hx; reflexivity|apply IHl; reflexivity]. }
    destruct (pip_each uw lower fr l) as [l'|]; [|discriminate]. cbn [bind] in E. injection E as <-.
    f_equal. apply G. reflexivity.
Qed.
Lemma pip_each_eq uw lower fr l : forall l', pip_each uw lower fr l = Ok l' -> l' = map (answered (pip_answer uw lower fr)) l.
Proof.
  induction l as [|x l IH]; intros l' E; cbn [pip_each map] in *; [congruence|].
  destruct (pip uw lower fr x) as [y|] eqn:Ex; [|discriminate]. cbn [bind] in E.
  destruct (pip_each uw lower fr l) as [r|]; [|discriminate]. cbn [bind] in E.
  injection E as <-. f_equal; [exact (pip_eq _ _ _ _ _ Ex)|apply IH; reflexivity].
Qed.
