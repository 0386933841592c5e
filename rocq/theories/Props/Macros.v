(** C11: macros. *)
From Coq Require Import List Bool Arith NArith Lia.
From Verif.Base Require Import Str StrFacts Dict DictFacts PyText PyTextFacts Result.
From Verif.Model Require Import Attributes Macros.
From Verif.Spec Require Import Macros.
From Verif.Proof Require Import Attributes Macros.
Import ListNotations.

(** In all statements: [Obj] are the Python objects, [none] is None, [attr] is
    attribute access, [show] is str(), [uw] the non-ASCII word characters. *)

(** C11: a text without '@' is unchanged. *)
Theorem C11_no_macros :
  forall Obj uw isnone (none : Obj) attr show rounds dicts s,
    ~ In 64%N s -> replace_macros uw isnone none attr show rounds s dicts = Some s.
Proof. intros. apply replace_no_at. assumption. Qed.

(** C11: the value of '@name.attr...' is found in the first dictionary that
    defines '@name', attributes are followed while they exist, and the rest of
    the name stays as text. *)
Theorem C11_value_of_reference :
  forall Obj uw isnone (none : Obj) attr show dicts k ps o o2 rest b,
    isnone none = true ->
    first_with (64%N :: k) dicts o -> isnone o = false ->
    k <> [] -> Forall (fun c => is_word uw c = true) k ->
    Forall (fun p => Forall (fun c => is_word uw c = true) p) ps ->
    (forall ws, b = Some ws -> Forall (fun c => rx_space c = true) ws) ->
    attr_path isnone attr o ps o2 rest ->
    ~ In 64%N (show o2) ->
    forall rounds, 1 <= rounds ->
    replace_macros uw isnone none attr show rounds (ref_text (join [46%N] (k :: ps)) b) dicts
    = Some (show o2 ++ concat (map (fun p => 46%N :: p) rest)).
Proof.
  intros Obj uw isnone none attr show dicts k ps o o2 rest b Hn Hf Ho Hk Hkw Hps Hb Hp Hs rounds Hr.
  assert (Hdot : forall w, Forall (fun c => is_word uw c = true) w -> ~ In 46%N w).
  { intros w Hw Hi. rewrite Forall_forall in Hw. specialize (Hw _ Hi). discriminate. }
  assert (Hat : forall w, Forall (fun c => is_word uw c = true) w -> ~ In 64%N w).
  { intros w Hw Hi. rewrite Forall_forall in Hw. specialize (Hw _ Hi). discriminate. }
  set (n := join [46%N] (k :: ps)).
  assert (Hnn : n <> []).
  { unfold n. destruct ps; [exact Hk|]. rewrite join_cons by discriminate. destruct k; [congruence|discriminate]. }
  assert (Hnc : Forall (name_char uw) n).
  { unfold n. assert (Hall : Forall (fun p => Forall (fun c => is_word uw c = true) p) (k :: ps)) by (constructor; auto).
    clear -Hall. induction Hall as [|p l Hp Hl IH]; [constructor|].
    assert (Hp' : Forall (name_char uw) p) by (eapply Forall_impl; [|exact Hp]; intros c Hc; left; exact Hc).
    destruct l as [|p' l]; [exact Hp'|]. rewrite join_cons by discriminate.
    apply Forall_app; split; [exact Hp'|]. constructor; [right; reflexivity|exact IH]. }
  assert (Hw : wf_tokens uw [Ref n b]).
  { constructor; auto; [|constructor]. intros _. exact I. }
  pose proof (pass_tokens uw isnone none attr show dicts [Ref n b] Hw) as E.
  rewrite text_of_cons in E. cbn [token_text text_of map concat names_of flat_map length app pass_token] in E.
  rewrite !app_nil_r in E.
  assert (Hsub := substitute_value isnone none attr show dicts k ps o o2 rest (ref_text n b) Hn Hf Ho (Hdot k Hkw)).
  fold n in Hsub. rewrite Hsub in E; [|eapply Forall_impl; [|exact Hps]; intros p; apply Hdot|exact Hp].
  assert (Hrest : ~ In 64%N (show o2 ++ concat (map (fun p => 46%N :: p) rest))).
  { rewrite in_app_iff. intros [Hi|Hi]; [contradiction|].
    apply in_concat in Hi as (w & Hw1 & Hw2). apply in_map_iff in Hw1 as (p & <- & Hp1).
    destruct Hw2 as [|Hw2]; [discriminate|].
    assert (Hin : In p ps).
    { clear -Hp Hp1. induction Hp; simpl in *; auto. }
    rewrite Forall_forall in Hps. apply (Hat p (Hps p Hin) Hw2). }
  unfold replace_macros. rewrite E. destruct rounds as [|rounds]; [lia|].
  cbn [macro_loop Nat.ltb Nat.leb andb]. rewrite pass_no_at by exact Hrest.
  destruct rounds; reflexivity.
Qed.

Lemma in_names n b ts : In (Ref n b) ts -> In n (names_of ts).
Proof. intros H. apply in_flat_map. exists (Ref n b). split; [exact H|left; reflexivity]. Qed.

Lemma plain_values :
  forall Obj uw isnone (none : Obj) attr show dicts (value : str -> option str) ts,
    wf_tokens uw ts -> wf_tokens uw (expand value ts) ->
    (forall n b, In (Ref n b) ts ->
       substitute isnone none attr show dicts (64%N :: n) (ref_text n b) =
       match value n with Some v => v | None => ref_text n b end) ->
    forall rounds, 2 <= rounds ->
    replace_macros uw isnone none attr show rounds (text_of ts) dicts = Some (text_of (expand value ts)).
Proof.
  intros Obj uw isnone none attr show dicts value ts Hw Hw2 Hv rounds Hr.
  unfold replace_macros. rewrite (pass_tokens uw isnone none attr show dicts ts Hw).
  assert (Hmap : concat (map (pass_token isnone none attr show dicts) ts) = text_of (expand value ts)).
  { unfold text_of, expand. rewrite map_map. f_equal. apply map_ext_in. intros [x|n b] Hin; [reflexivity|].
    cbn [pass_token expand_token]. rewrite (Hv n b Hin). destruct (value n); reflexivity. }
  rewrite Hmap.
  assert (Hmap2 : concat (map (pass_token isnone none attr show dicts) (expand value ts)) = text_of (expand value ts)).
  { unfold text_of, expand. rewrite !map_map. f_equal. apply map_ext_in. intros [x|n b] Hin; [reflexivity|].
    cbn [expand_token]. destruct (value n) eqn:En; [reflexivity|].
    cbn [pass_token token_text]. rewrite (Hv n b Hin), En. reflexivity. }
  assert (Hlen : length (names_of (expand value ts)) <= length (names_of ts)).
  { unfold names_of, expand. clear. induction ts as [|[x|n b] ts IH]; [apply le_n| |].
    - exact IH.
    - cbn [map flat_map expand_token]. destruct (value n); cbn [flat_map app length]; lia. }
  destruct rounds as [|rounds]; [lia|].
  cbn [macro_loop].
  destruct (names_of ts) as [|n0 ns0] eqn:En.
  - cbn. reflexivity.
  - cbn [length]. cbn [Nat.ltb Nat.leb andb].
    rewrite (pass_tokens uw isnone none attr show dicts (expand value ts) Hw2), Hmap2.
    cbn [length] in Hlen.
    destruct rounds as [|rounds]; [lia|]. cbn [macro_loop].
    destruct (Nat.ltb_spec (S (length ns0)) (length (names_of (expand value ts)))); [lia|].
    rewrite andb_false_r. reflexivity.
Qed.

Lemma all_known :
  forall Obj uw isnone (none : Obj) attr show dicts (value : str -> str) ts,
    wf_tokens uw ts ->
    (forall n b, In (Ref n b) ts ->
       substitute isnone none attr show dicts (64%N :: n) (ref_text n b) = value n /\ ~ In 64%N (value n)) ->
    forall rounds, 2 <= rounds ->
    exists r, replace_macros uw isnone none attr show rounds (text_of ts) dicts = Some r /\
      r = concat (map (fun t => match t with Text x => x | Ref n _ => value n end) ts) /\ ~ In 64%N r.
Proof.
  intros Obj uw isnone none attr show dicts value ts Hw Hv rounds Hr.
  assert (Hex : Forall (fun t => match t with Text x => ~ In 64%N x | _ => False end) (expand (fun n => Some (value n)) ts)).
  { clear -Hw Hv. induction Hw as [|x ts Hx Hw IH|n b ts Hne Hn Hb He Hw IH]; cbn [expand map expand_token].
    - constructor.
    - constructor; [exact Hx|]. apply IH. intros n b Hin. apply Hv. right. exact Hin.
    - constructor; [apply (Hv n b); left; reflexivity|]. apply IH. intros n' b' Hin. apply Hv. right. exact Hin. }
  rewrite (plain_values Obj uw isnone none attr show dicts (fun n => Some (value n)) ts Hw); auto.
  - eexists. split; [reflexivity|]. split.
    + unfold text_of, expand. rewrite map_map. f_equal. apply map_ext. intros [x|n b]; reflexivity.
    + unfold text_of. intros Hi. apply in_concat in Hi as (w & Hw1 & Hw2).
      apply in_map_iff in Hw1 as (t & <- & Ht). rewrite Forall_forall in Hex. specialize (Hex t Ht).
      destruct t; [contradiction|exact Hex].
  - clear -Hex. induction Hex as [|[x|n b] l Hx _ IH]; [constructor|constructor; auto|destruct Hx].
  - intros n b Hin. apply Hv. exact Hin.
Qed.

Lemma two_levels :
  forall Obj uw isnone (none : Obj) attr show dicts (def : str -> list token) (value : str -> str) ts,
    wf_tokens uw ts ->
    (forall n b, In (Ref n b) ts ->
       substitute isnone none attr show dicts (64%N :: n) (ref_text n b) = text_of (def n) /\
       wf_tokens uw (def n) /\ closed (def n) /\
       forall m c, In (Ref m c) (def n) ->
         substitute isnone none attr show dicts (64%N :: m) (ref_text m c) = value m /\ ~ In 64%N (value m)) ->
    forall rounds, 2 <= rounds ->
    exists r, replace_macros uw isnone none attr show rounds (text_of ts) dicts = Some r /\
      r = concat (map (fun t => match t with Text x => x | Ref n _ => value n end) (unfold_refs def ts)) /\
      ~ In 64%N r.
Proof.
  intros Obj uw isnone none attr show dicts def value ts Hw Hv rounds Hr.
  assert (Happ : forall a b, wf_tokens uw a -> closed a -> wf_tokens uw b -> wf_tokens uw (a ++ b)).
  { intros a b Ha. induction Ha as [|x ts0 Hx Hw0 IH|n c ts0 Hne Hn Hb He Hw0 IH]; intros Hc Hb'; cbn [app].
    - exact Hb'.
    - constructor; [exact Hx|]. apply IH; [|exact Hb']. intros a0 n r E. apply (Hc (Text x :: a0) n r). rewrite E. reflexivity.
    - constructor; auto.
      + intros ->. specialize (He eq_refl). rewrite text_of_app.
        specialize (Hc [] n ts0 eq_refl). destruct (text_of ts0); [congruence|]. exact He.
      + apply IH; [|exact Hb']. intros a0 n' r E. apply (Hc (Ref n c :: a0) n' r). rewrite E. reflexivity. }
  assert (Hu : wf_tokens uw (unfold_refs def ts) /\
               concat (map (pass_token isnone none attr show dicts) ts) = text_of (unfold_refs def ts) /\
               forall m c, In (Ref m c) (unfold_refs def ts) ->
                 substitute isnone none attr show dicts (64%N :: m) (ref_text m c) = value m /\ ~ In 64%N (value m)).
  { clear -Hw Hv Happ. induction Hw as [|x ts Hx Hw IH|n b ts Hne Hn Hb He Hw IH].
    - repeat split; try constructor; destruct H.
    - destruct IH as (I1 & I2 & I3); [intros n b Hin; apply Hv; right; exact Hin|].
      cbn [unfold_refs flat_map app map concat pass_token]. split; [|split].
      + constructor; [exact Hx|exact I1].
      + rewrite text_of_cons. cbn [token_text]. rewrite I2. reflexivity.
      + intros m c [E|Hin]; [discriminate|]. apply I3. exact Hin.
    - destruct IH as (I1 & I2 & I3); [intros n' b' Hin; apply Hv; right; exact Hin|].
      destruct (Hv n b (or_introl eq_refl)) as (V1 & V2 & V3 & V4).
      cbn [unfold_refs flat_map map concat pass_token]. split; [|split].
      + apply Happ; auto.
      + rewrite text_of_app, V1, I2. reflexivity.
      + intros m c Hin. apply in_app_iff in Hin as [Hin|Hin]; [apply V4|apply I3]; exact Hin. }
  destruct Hu as (U1 & U2 & U3).
  pose (r := concat (map (fun t => match t with Text x => x | Ref n _ => value n end) (unfold_refs def ts))).
  assert (Hp2 : concat (map (pass_token isnone none attr show dicts) (unfold_refs def ts)) = r).
  { unfold r. f_equal. apply map_ext_in. intros [x|n b] Hin; [reflexivity|]. apply (U3 n b Hin). }
  assert (Hno : ~ In 64%N r).
  { unfold r. clear -U1 U3. revert U1 U3. generalize (unfold_refs def ts). intros us U1 U3.
    induction U1 as [|x us Hx Hw IH|n b us Hne Hn Hb He Hw IH]; cbn [map concat].
    - auto.
    - rewrite in_app_iff. intros [Hi|Hi]; [contradiction|]. revert Hi. apply IH. intros m c Hin. apply U3. right. exact Hin.
    - rewrite in_app_iff. intros [Hi|Hi].
      + destruct (U3 n b (or_introl eq_refl)). contradiction.
      + revert Hi. apply IH. intros m c Hin. apply U3. right. exact Hin. }
  exists r. split; [|auto].
  unfold replace_macros. rewrite (pass_tokens uw isnone none attr show dicts ts Hw), U2.
  destruct rounds as [|[|rounds]]; try lia. cbn [macro_loop].
  destruct (names_of ts) as [|n0 ns0] eqn:En.
  - cbn. f_equal. unfold r.
    assert (Hts : Forall (fun t => match t with Text _ => True | _ => False end) ts).
    { clear -En. induction ts as [|[x|n b] ts IH]; [constructor|constructor; auto|discriminate]. }
    clear -Hts. induction Hts as [|[x|n b] ts Hx _ IH]; [reflexivity| |destruct Hx].
    cbn [unfold_refs flat_map app map concat]. rewrite text_of_cons. cbn [token_text]. f_equal. exact IH.
  - cbn [length Nat.ltb Nat.leb andb].
    rewrite (pass_tokens uw isnone none attr show dicts _ U1), Hp2.
    match goal with |- (if ?c then _ else _) = _ => destruct c end; [|reflexivity].
    rewrite pass_no_at by exact Hno. destruct rounds; reflexivity.
Qed.

(** C11: every reference with a value without '@' is replaced by it, once; the
    unknown references and all literal text stay as they are, and the
    substitution finishes (after at most three passes).  The second hypothesis
    says that no value is glued to a reference that stays. *)
Theorem C11_plain_values :
  forall Obj uw isnone (none : Obj) attr show dicts (value : str -> option str) ts,
    isnone none = true -> (forall p, attr none (64%N :: p) = None) ->
    wf_tokens uw ts -> wf_tokens uw (expand value ts) ->
    (forall n, In n (names_of ts) ->
       match value n with
       | Some v => has_value isnone attr show dicts n v
       | None => unknown dicts n
       end) ->
    forall rounds, 2 <= rounds ->
    replace_macros uw isnone none attr show rounds (text_of ts) dicts = Some (text_of (expand value ts)).
Proof.
  intros Obj uw isnone none attr show dicts value ts Hn Ha Hw Hw2 Hv rounds Hr.
  apply plain_values; auto. intros n b Hin. specialize (Hv n (in_names _ _ _ Hin)).
  destruct (value n); [apply substitute_has_value|apply substitute_unknown]; auto.
Qed.

(** C11: in particular, when every reference has a value without '@', nothing
    is left to substitute. *)
Theorem C11_all_known :
  forall Obj uw isnone (none : Obj) attr show dicts (value : str -> str) ts,
    isnone none = true -> wf_tokens uw ts ->
    (forall n, In n (names_of ts) -> has_value isnone attr show dicts n (value n) /\ ~ In 64%N (value n)) ->
    forall rounds, 2 <= rounds ->
    exists r, replace_macros uw isnone none attr show rounds (text_of ts) dicts = Some r /\
      r = concat (map (fun t => match t with Text x => x | Ref n _ => value n end) ts) /\ ~ In 64%N r.
Proof.
  intros Obj uw isnone none attr show dicts value ts Hn Hw Hv rounds Hr.
  apply all_known; auto. intros n b Hin. destruct (Hv n (in_names _ _ _ Hin)). split; [|assumption].
  apply substitute_has_value; auto.
Qed.

(** C11: values that refer to values without '@' (two levels) are expanded
    completely. *)
Theorem C11_two_levels :
  forall Obj uw isnone (none : Obj) attr show dicts (def : str -> list token) (value : str -> str) ts,
    isnone none = true -> wf_tokens uw ts ->
    (forall n, In n (names_of ts) ->
       has_value isnone attr show dicts n (text_of (def n)) /\ wf_tokens uw (def n) /\ closed (def n) /\
       forall m, In m (names_of (def n)) -> has_value isnone attr show dicts m (value m) /\ ~ In 64%N (value m)) ->
    forall rounds, 2 <= rounds ->
    exists r, replace_macros uw isnone none attr show rounds (text_of ts) dicts = Some r /\
      r = concat (map (fun t => match t with Text x => x | Ref n _ => value n end) (unfold_refs def ts)) /\
      ~ In 64%N r.
Proof.
  intros Obj uw isnone none attr show dicts def value ts Hn Hw Hv rounds Hr.
  apply two_levels; auto. intros n b Hin. destruct (Hv n (in_names _ _ _ Hin)) as (V1 & V2 & V3 & V4).
  split; [apply substitute_has_value; auto|]. split; [auto|]. split; [auto|].
  intros m c Hm. destruct (V4 m (in_names _ _ _ Hm)). split; [|auto]. apply substitute_has_value; auto.
Qed.

(** C11: a text whose references are all unknown is unchanged. *)
Theorem C11_unknown_unchanged :
  forall Obj uw isnone (none : Obj) attr show dicts ts,
    isnone none = true -> (forall p, attr none (64%N :: p) = None) ->
    wf_tokens uw ts ->
    (forall n, In n (names_of ts) -> unknown dicts n) ->
    forall rounds, 2 <= rounds ->
    replace_macros uw isnone none attr show rounds (text_of ts) dicts = Some (text_of ts).
Proof.
  intros Obj uw isnone none attr show dicts ts Hn Ha Hw Hu rounds Hr.
  assert (Hid : expand (fun _ => None) ts = ts).
  { unfold expand. clear. induction ts as [|[x|n b] ts IH]; cbn [map expand_token]; congruence. }
  rewrite (C11_plain_values Obj uw isnone none attr show dicts (fun _ => None) ts Hn Ha Hw); rewrite ?Hid; auto.
Qed.

(** C11: if no value has an '@', the substitution finishes for every text. *)
Theorem C11_terminates_partial :
  forall Obj uw isnone (none : Obj) attr show dicts s,
    isnone none = true ->
    (forall o, reachable attr none dicts o -> isnone o = false -> ~ In 64%N (show o)) ->
    exists rounds r, replace_macros uw isnone none attr show rounds s dicts = Some r.
Proof.
  intros Obj uw isnone none attr show dicts s Hn Hv0.
  assert (Hv : values_plain isnone none attr show dicts).
  { intros m o rest E. apply Hv0. eapply resolve_reachable; [apply reach_none|exact E]. }
  unfold replace_macros. destruct (pass_ats uw isnone none attr show dicts Hn Hv (length s) s (le_n _)) as [P1 P2].
  destruct (pass uw isnone none attr show dicts s) as [s' n] eqn:E. cbn [fst snd] in *.
  exists (ats s). apply (loop_terminates uw isnone none attr show dicts Hn Hv); lia.
Qed.

(** Values that are strings: the instance used in the witnesses below. *)
Definition S_isnone (o : option str) : bool := match o with None => true | _ => false end.
Definition S_attr (o : option str) (p : str) : option (option str) := None.
Definition S_show (o : option str) : str := match o with Some s => s | None => lit "None" end.
Notation replace_strings uw := (replace_macros uw S_isnone None S_attr S_show).

(** C11 (finding): a macro that refers to itself twice makes the substitution
    run for ever. *)
Definition growing : list (dict str (option str)) := [[(lit "@a", Some (lit "@a @a"))]].
Fixpoint many (k : nat) : list token :=
  match k with O => [] | S j => Ref (lit "a") None :: Text (lit " ") :: many j end.
Lemma many_wf uw k : wf_tokens uw (many k ++ [Ref (lit "a") None]).
Proof.
  assert (Hn : Forall (name_char uw) (lit "a")) by (repeat constructor).
  assert (Hs : ~ In 64%N (lit " ")) by (simpl; intros [|[]]; discriminate).
  induction k; cbn [many app].
  - constructor; auto; try discriminate; [|constructor]. intros _. exact I.
  - constructor; auto; try discriminate.
    + intros _. split; [|discriminate]. unfold name_char. intros [H|H]; discriminate.
    + constructor; auto.
Qed.
Lemma many_pass uw k : pass uw S_isnone None S_attr S_show growing (text_of (many k ++ [Ref (lit "a") None])) =
  (text_of (many (2 * k + 1) ++ [Ref (lit "a") None]), S k).
Proof.
  rewrite (pass_tokens uw S_isnone None S_attr S_show growing _ (many_wf uw k)). f_equal.
  - induction k.
    + reflexivity.
    + replace (2 * S k + 1) with (S (S (2 * k + 1))) by lia.
      cbn [many app map concat]. rewrite IHk. rewrite !text_of_cons. reflexivity.
  - induction k; [reflexivity|]. cbn [many app names_of flat_map length]. f_equal. exact IHk.
Qed.
Theorem C11_terminates_refuted :
  ~ (forall uw (dicts : list (dict str (option str))) s, exists rounds r, replace_strings uw rounds s dicts = Some r).
Proof.
  intros H. destruct (H (fun _ => false) growing (lit "@a")) as (rounds & r & E).
  unfold replace_macros in E.
  change (lit "@a") with (text_of (many 0 ++ [Ref (lit "a") None])) in E. rewrite many_pass in E.
  assert (Hloop : forall rounds k last, last < S k ->
            macro_loop (fun _ => false) S_isnone None S_attr S_show rounds growing
              (text_of (many (2 * k + 1) ++ [Ref (lit "a") None])) (S k) last = None).
  { induction rounds0 as [|n IH]; intros k last Hl; cbn [macro_loop];
      (destruct (Nat.ltb_spec last (S k)); [|lia]); cbn [Nat.ltb Nat.leb andb]; [reflexivity|].
    rewrite many_pass. apply IH. lia. }
  rewrite Hloop in E by lia. discriminate.
Qed.

(** C11 (finding): a chain of three macros is not expanded completely: the
    result still has a reference to a defined macro. *)
Definition chain3 : list (dict str (option str)) :=
  [[(lit "@a", Some (lit "@b")); (lit "@b", Some (lit "@c")); (lit "@c", Some (lit "x"))]].
Theorem C11_leaves_macro_refuted :
  ~ (forall uw (dicts : list (dict str (option str))) s rounds r,
       replace_strings uw rounds s dicts = Some r ->
       forall name d, In d dicts -> In (64%N :: name) (keys d) -> contains r (64%N :: name) = false).
Proof.
  intros H. specialize (H (fun _ => false) chain3 (lit "@a") 2 (lit "@c") eq_refl (lit "c") (hd [] chain3)).
  assert (E : contains (lit "@c") (64%N :: lit "c") = false).
  { apply H; simpl; auto. }
  discriminate E.
Qed.

Example C11_ex :
  replace_strings (fun _ => false) 2 (lit "Dear @name, @title{}s of @unknown.")
    [[(lit "@name", Some (lit "Ada"))]; [(lit "@name", Some (lit "Bob")); (lit "@title", Some (lit "Count"))]]
  = Some (lit "Dear Ada, Counts of @unknown.").
Proof. reflexivity. Qed.
Ltac no_at := let H := fresh in intros H; repeat (destruct H as [H|H]; [discriminate|]); destruct H.
Ltac name_chars := repeat (apply Forall_cons; [first [left; reflexivity | right; reflexivity]|]); apply Forall_nil.
Example C11_ex_wf :
  wf_tokens (fun _ => false)
    [Text (lit "Dear "); Ref (lit "name") None; Text (lit ", "); Ref (lit "title") (Some []); Text (lit "s of ");
     Ref (lit "unknown.") None].
Proof.
  apply wf_text; [no_at|]. apply wf_ref; [discriminate|name_chars|discriminate| |].
  { intros _. split; [intros [H|H]; discriminate|discriminate]. }
  apply wf_text; [no_at|]. apply wf_ref; [discriminate|name_chars|intros ws [= <-]; apply Forall_nil|discriminate|].
  apply wf_text; [no_at|]. apply wf_ref; [discriminate|name_chars|discriminate| |apply wf_nil].
  intros _. exact I.
Qed.
(** two levels: '@hi' is defined as 'Dear @name,' *)
Example C11_ex_levels :
  replace_strings (fun _ => false) 2 (lit "@hi{} thanks @name!")
    [[(lit "@hi", Some (lit "Dear @name,")); (lit "@name", Some (lit "Ada"))]]
  = Some (lit "Dear Ada, thanks Ada!").
Proof. reflexivity. Qed.
Example C11_ex_closed : closed [Text (lit "Dear "); Ref (lit "name") None; Text (lit ",")].
Proof.
  intros a n r E. destruct a as [|t1 a]; [discriminate|]. injection E as _ E.
  destruct a as [|t2 a]; [injection E as _ <-; discriminate|]. injection E as _ E.
  destruct a as [|t3 a]; [discriminate|]. injection E as _ E. destruct a; discriminate.
Qed.
