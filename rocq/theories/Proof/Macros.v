(** Lemmas for Props/Macros.v *)
From Coq Require Import List Bool Arith NArith Lia.
From Verif.Base Require Import Str StrFacts Dict DictFacts PyText PyTextFacts Result.
From Verif.Model Require Import Attributes Macros.
From Verif.Spec Require Import Macros.
From Verif.Proof Require Import Attributes.
Import ListNotations.

Lemma text_of_cons t ts : text_of (t :: ts) = token_text t ++ text_of ts.
Proof. reflexivity. Qed.
Lemma text_of_app a b : text_of (a ++ b) = text_of a ++ text_of b.
Proof. unfold text_of. rewrite map_app, concat_app. reflexivity. Qed.

Section P.
Context {Obj : Type} (uw : char -> bool) (isnone : Obj -> bool) (none : Obj)
        (attr : Obj -> str -> option Obj) (show : Obj -> str).
Notation substitute := (substitute isnone none attr show).
Notation subn := (subn uw isnone none attr show).
Notation pass := (pass uw isnone none attr show).
Notation macro_loop := (macro_loop uw isnone none attr show).
Notation replace_macros := (replace_macros uw isnone none attr show).
Implicit Types dicts : list (dict str Obj).

Lemma macro_char_name c : macro_char uw c = true <-> name_char uw c.
Proof. unfold macro_char, name_char, dot. rewrite orb_true_iff, N.eqb_eq. reflexivity. Qed.
Lemma macro_char_not c : macro_char uw c = false <-> ~ name_char uw c.
Proof. rewrite <- macro_char_name. destruct (macro_char uw c); split; congruence. Qed.
Lemma at_not_macro : macro_char uw 64%N = false. Proof. reflexivity. Qed.

Lemma span_names n r : Forall (name_char uw) n -> (forall c r', r = c :: r' -> ~ name_char uw c) ->
  span (macro_char uw) (n ++ r) = (n, r).
Proof.
  intros Hn Hr. apply span_app.
  - apply forallb_forall. intros c Hc. rewrite Forall_forall in Hn. apply macro_char_name. auto.
  - intros c r' E. apply macro_char_not. eauto.
Qed.

(** matching a well-formed reference *)
Lemma match_macro_ref n b rest :
  n <> [] -> Forall (name_char uw) n ->
  (forall ws, b = Some ws -> Forall (fun c => rx_space c = true) ws) ->
  (b = None -> ends_name uw rest) ->
  match_macro uw (ref_text n b ++ rest) = Some (64%N :: n, ref_text n b, rest).
Proof.
  intros Hne Hn Hb He. unfold ref_text. cbn [app match_macro].
  change (N.eqb 64 at_sign) with true. cbv iota.
  destruct b as [ws|].
  - rewrite <- app_assoc. cbn [app]. rewrite span_names; [|exact Hn|].
    2:{ intros c r' [= <- _]. apply macro_char_not. reflexivity. }
    destruct n as [|c0 n0]; [congruence|]. change (N.eqb 123 123) with true. cbv iota.
    rewrite <- app_assoc. cbn [app].
    assert (Es : span rx_space (ws ++ 125%N :: rest) = (ws, 125%N :: rest)).
    { apply span_app; [|intros c r' [= <- _]; reflexivity].
      apply forallb_forall, Forall_forall. apply Hb. reflexivity. }
    rewrite Es. reflexivity.
  - specialize (He eq_refl). rewrite app_nil_r. rewrite span_names; [|exact Hn|].
    2:{ intros c r' ->. apply He. }
    destruct n as [|c0 n0]; [congruence|].
    destruct rest as [|c rest]; [reflexivity|]. destruct He as [_ He].
    destruct (N.eqb_spec c 123); [contradiction|]. reflexivity.
Qed.

Lemma match_macro_None x : (forall r, x <> 64%N :: r) -> match_macro uw x = None.
Proof.
  intros H. destruct x as [|c x]; [reflexivity|]. cbn [match_macro]. unfold at_sign.
  destruct (N.eqb_spec c 64) as [->|]; [|reflexivity]. exfalso. apply (H x). reflexivity.
Qed.

(** a match takes at least its first character; nothing is lost *)
Lemma match_macro_split x m w r : match_macro uw x = Some (m, w, r) ->
  x = w ++ r /\ exists n, m = 64%N :: n /\ n <> [] /\ Forall (name_char uw) n /\
  exists q, w = m ++ q /\ ~ In 64%N q.
Proof.
  destruct x as [|c x]; [discriminate|]. cbn [match_macro].
  destruct (N.eqb_spec c at_sign) as [->|]; [|discriminate].
  destruct (span_decomp (macro_char uw) x) as (E1 & E2 & E3).
  destruct (span (macro_char uw) x) as [name rest]. cbn [fst snd] in *.
  destruct name as [|c0 n0]; [discriminate|].
  assert (Hn : Forall (name_char uw) (c0 :: n0)).
  { apply Forall_forall. intros c Hc. apply macro_char_name. rewrite forallb_forall in E2. auto. }
  assert (Hplain : forall m w r, Some (at_sign :: c0 :: n0, at_sign :: c0 :: n0, rest) = Some (m, w, r) ->
    at_sign :: x = w ++ r /\ exists n, m = 64%N :: n /\ n <> [] /\ Forall (name_char uw) n /\
    exists q, w = m ++ q /\ ~ In 64%N q).
  { intros m0 w0 r0 [= <- <- <-]. split; [rewrite E1; reflexivity|].
    exists (c0 :: n0). repeat split; auto; [discriminate|]. exists []. rewrite app_nil_r. auto. }
  destruct rest as [|b rest1]; [apply Hplain|].
  destruct (N.eqb_spec b 123) as [->|]; [|apply Hplain].
  destruct (span_decomp rx_space rest1) as (F1 & F2 & F3).
  destruct (span rx_space rest1) as [ws rest2]. cbn [fst snd] in *.
  destruct rest2 as [|e rest2]; [apply Hplain|].
  destruct (N.eqb_spec e 125) as [->|]; [|apply Hplain].
  intros [= <- <- <-]. split.
  - rewrite E1, F1. cbn [app]. rewrite <- !app_assoc. cbn [app]. rewrite <- app_assoc. reflexivity.
  - exists (c0 :: n0). repeat split; auto; [discriminate|].
    exists (123%N :: ws ++ [125%N]). split; [reflexivity|].
    simpl. rewrite in_app_iff. simpl. intros [|[Hi|[|[]]]]; try discriminate.
    rewrite forallb_forall in F2. specialize (F2 _ Hi). discriminate.
Qed.

(** enough fuel *)
Lemma subn_fuel dicts : forall f x, length x <= f -> subn f dicts x = pass dicts x.
Proof.
  assert (H : forall f g x, length x <= f -> length x <= g -> subn f dicts x = subn g dicts x).
  { induction f as [|f IH]; intros g x Hf Hg.
    - destruct x; [|simpl in Hf; lia]. destruct g; reflexivity.
    - destruct g as [|g]; [destruct x; [reflexivity|simpl in Hg; lia]|].
      cbn [Macros.subn]. destruct x as [|c x]; [reflexivity|].
      simpl in Hf, Hg. destruct (match_macro uw (c :: x)) as [[[m w] r]|] eqn:E.
      + apply match_macro_split in E as (E & n & -> & _ & _ & q & -> & _).
        assert (Hr : length r <= f /\ length r <= g).
        { apply (f_equal (@length _)) in E. rewrite !app_length in E. simpl in E. lia. }
        rewrite (IH g r) by lia. reflexivity.
      + rewrite (IH g x) by lia. reflexivity. }
  intros f x Hf. apply H; [exact Hf|lia].
Qed.

Lemma pass_nil dicts : pass dicts [] = ([], 0).
Proof. reflexivity. Qed.
Lemma pass_char dicts c x : c <> 64%N ->
  pass dicts (c :: x) = (c :: fst (pass dicts x), snd (pass dicts x)).
Proof.
  intros Hc. unfold Macros.pass. cbn [length Macros.subn].
  rewrite match_macro_None by (intros r [= E _]; congruence).
  fold (pass dicts x). destruct (pass dicts x). reflexivity.
Qed.
Lemma pass_text dicts t x : ~ In 64%N t ->
  pass dicts (t ++ x) = (t ++ fst (pass dicts x), snd (pass dicts x)).
Proof.
  induction t as [|c t IH]; intros Ht; [apply surjective_pairing|].
  cbn [app]. rewrite pass_char by (intros ->; apply Ht; left; reflexivity).
  rewrite IH by (intros H; apply Ht; right; exact H). reflexivity.
Qed.
Lemma pass_match dicts x m w r : match_macro uw x = Some (m, w, r) ->
  pass dicts x = (substitute dicts m w ++ fst (pass dicts r), S (snd (pass dicts r))).
Proof.
  intros E. pose proof (match_macro_split _ _ _ _ E) as (Ex & n & -> & _ & _ & q & -> & _).
  unfold Macros.pass. destruct x as [|c x]; [discriminate|]. cbn [length Macros.subn]. rewrite E.
  rewrite (subn_fuel dicts (length x) r).
  - fold (pass dicts r). destruct (pass dicts r). reflexivity.
  - apply (f_equal (@length _)) in Ex. rewrite !app_length in Ex. simpl in Ex. lia.
Qed.

(** one pass over a well-formed text *)
Definition pass_token dicts (t : token) : str :=
  match t with Text x => x | Ref n b => substitute dicts (64%N :: n) (ref_text n b) end.

Lemma pass_tokens dicts ts : wf_tokens uw ts ->
  pass dicts (text_of ts) = (concat (map (pass_token dicts) ts), length (names_of ts)).
Proof.
  induction 1 as [|x ts Hx Hw IH|n b ts Hne Hn Hb He Hw IH].
  - reflexivity.
  - rewrite text_of_cons. cbn [token_text]. rewrite pass_text by exact Hx. rewrite IH. reflexivity.
  - rewrite text_of_cons. cbn [token_text].
    rewrite (pass_match dicts _ _ _ _ (match_macro_ref n b (text_of ts) Hne Hn Hb He)).
    rewrite IH. reflexivity.
Qed.

Lemma pass_no_at dicts x : ~ In 64%N x -> pass dicts x = (x, 0).
Proof.
  intros H. rewrite <- (app_nil_r x) at 1. rewrite pass_text by exact H.
  rewrite pass_nil. cbn. rewrite app_nil_r. reflexivity.
Qed.

Lemma replace_no_at rounds dicts x : ~ In 64%N x -> replace_macros rounds x dicts = Some x.
Proof.
  intros H. unfold Macros.replace_macros. rewrite pass_no_at by exact H. destruct rounds; reflexivity.
Qed.

(** ** Resolution *)
Lemma find_dicts_first k dicts v : find_dicts k dicts = Some v <-> first_with k dicts v.
Proof.
  split.
  - induction dicts as [|d ds IH]; simpl; [discriminate|]. destruct (lookup k d) eqn:E.
    + intros [= <-]. apply fw_here. exact E.
    + intros H. apply fw_later; auto.
  - induction 1 as [d ds v E|d ds v E _ IH]; simpl; rewrite E; auto.
Qed.

Lemma resolve_path dicts o ps o2 rest : isnone o = false ->
  attr_path isnone attr o ps o2 rest -> resolve isnone attr dicts o ps = (o2, rest) /\ isnone o2 = false.
Proof.
  intros Ho H. induction H as [o|o p ps E|o p ps o1 o2 rest E E1 _ IH].
  - auto.
  - cbn [resolve]. rewrite Ho, E. auto.
  - cbn [resolve]. rewrite Ho, E. apply IH. exact E1.
Qed.

Lemma substitute_value dicts k ps o o2 rest w :
  isnone none = true ->
  first_with (64%N :: k) dicts o -> isnone o = false -> ~ In 46%N k -> Forall (fun p => ~ In 46%N p) ps ->
  attr_path isnone attr o ps o2 rest ->
  substitute dicts (64%N :: join [46%N] (k :: ps)) w = show o2 ++ concat (map (fun p => 46%N :: p) rest).
Proof.
  intros Hn Hf Ho Hk Hps Hp. unfold Macros.substitute.
  replace (64%N :: join [46%N] (k :: ps)) with (join [46%N] ((64%N :: k) :: ps)) by (destruct ps; reflexivity).
  unfold dot. rewrite split_c_join; [|discriminate|].
  2:{ intros q [<-|Hq].
      - intros [E|Hi]; [discriminate|contradiction].
      - rewrite Forall_forall in Hps. auto. }
  cbn [resolve]. rewrite Hn. apply find_dicts_first in Hf. rewrite Hf.
  destruct (resolve_path dicts o ps o2 rest Ho Hp) as [-> E2]. rewrite E2. reflexivity.
Qed.

Lemma substitute_has_value dicts n v w : isnone none = true ->
  has_value isnone attr show dicts n v -> substitute dicts (64%N :: n) w = v.
Proof.
  intros Hn (k & ps & o & o2 & rest & -> & Hd & Hf & Ho & Hp & ->).
  apply Forall_cons_iff in Hd as [Hk Hd]. eapply substitute_value; eauto.
Qed.

Lemma substitute_unknown dicts n w : isnone none = true -> (forall p, attr none (64%N :: p) = None) ->
  unknown dicts n -> substitute dicts (64%N :: n) w = w.
Proof.
  intros Hn Ha (k & ps & -> & Hd & Hu). unfold Macros.substitute, dot.
  replace (64%N :: join [46%N] (k :: ps)) with (join [46%N] ((64%N :: k) :: ps)) by (destruct ps; reflexivity).
  apply Forall_cons_iff in Hd as [Hk Hd]. rewrite split_c_join; [|discriminate|].
  2:{ intros q [<-|Hq].
      - intros [E|Hi]; [discriminate|contradiction].
      - rewrite Forall_forall in Hd. auto. }
  cbn [resolve]. rewrite Hn.
  assert (Hf : find_dicts (64%N :: k) dicts = None).
  { clear -Hu. induction Hu as [|d ds Hu0 _ IH]; [reflexivity|]. cbn [find_dicts]. rewrite Hu0. exact IH. }
  rewrite Hf, Ha, Hn. reflexivity.
Qed.

(** ** Bounds: no value has an '@' *)
Definition ats (x : str) : nat := count_c 64%N x.
Lemma ats_app a b : ats (a ++ b) = ats a + ats b.
Proof. unfold ats, count_c. rewrite filter_app, app_length. reflexivity. Qed.
Lemma ats_0 x : ~ In 64%N x -> ats x = 0.
Proof.
  unfold ats, count_c. induction x as [|c x IH]; intros H; [reflexivity|].
  cbn [filter]. destruct (N.eqb_spec 64 c) as [E|]; [exfalso; apply H; left; auto|].
  apply IH. intros Hi. apply H. right. exact Hi.
Qed.

Lemma resolve_pieces dicts : forall ps o o' rest, resolve isnone attr dicts o ps = (o', rest) ->
  exists pre, ps = pre ++ rest.
Proof.
  induction ps as [|p ps IH]; intros o o' rest E.
  - injection E as _ <-. exists []. reflexivity.
  - assert (Hstep : forall o1, resolve isnone attr dicts o1 ps = (o', rest) -> exists pre, p :: ps = pre ++ rest).
    { intros o1 E1. destruct (IH o1 o' rest E1) as [pre ->]. exists (p :: pre). reflexivity. }
    cbn [resolve] in E.
    destruct (isnone o); destruct (find_dicts p dicts); destruct (attr o p); eauto;
      injection E as _ <-; exists []; reflexivity.
Qed.

Lemma name_no_at n : Forall (name_char uw) n -> ~ In 64%N n.
Proof.
  intros H Hi. rewrite Forall_forall in H. specialize (H _ Hi). apply macro_char_name in H. discriminate.
Qed.

Lemma substitute_ats dicts n q :
  (forall o rest, resolve isnone attr dicts none (split_c 46%N (64%N :: n)) = (o, rest) ->
     isnone o = false -> ~ In 64%N (show o)) ->
  isnone none = true ->
  Forall (name_char uw) n -> ~ In 64%N q -> ats (substitute dicts (64%N :: n) ((64%N :: n) ++ q)) <= 1.
Proof.
  intros Hv Hnone Hn Hq. unfold Macros.substitute. unfold dot in *.
  assert (Hw : ats ((64%N :: n) ++ q) <= 1).
  { rewrite ats_app, (ats_0 q Hq). change (64%N :: n) with ([64%N] ++ n).
    rewrite ats_app, (ats_0 n (name_no_at n Hn)). cbn. lia. }
  destruct (resolve isnone attr dicts none (split_c 46%N (64%N :: n))) as [o rest] eqn:E.
  destruct (isnone o) eqn:Eo; [exact Hw|].
  rewrite ats_app, (ats_0 (show o)) by (eapply Hv; eauto).
  assert (Hle : forall l : list str, ats (concat (map (fun p => 46%N :: p) l)) = list_sum (map ats l)).
  { induction l as [|p l IH]; [reflexivity|]. cbn [map concat].
    rewrite ats_app, IH. change (46%N :: p) with ([46%N] ++ p). rewrite ats_app. reflexivity. }
  rewrite Hle. apply resolve_pieces in E as [pre E].
  assert (Hs : list_sum (map ats (split_c 46%N (64%N :: n))) <= 1).
  { transitivity (ats (64%N :: n)).
    - rewrite <- (join_split_c 46%N (64%N :: n)) at 2. clear.
      generalize (split_c 46%N (64%N :: n)). induction l as [|p [|p' l] IH]; cbn [map list_sum fold_right].
      + lia.
      + cbn [join]. lia.
      + rewrite join_cons by discriminate. rewrite !ats_app. unfold list_sum in *. cbn [map fold_right] in *. lia.
    - rewrite <- (app_nil_r (64%N :: n)). rewrite ats_app. change (64%N :: n) with ([64%N] ++ n).
      rewrite ats_app, (ats_0 n (name_no_at n Hn)). cbn. lia. }
  rewrite E, map_app in Hs. unfold list_sum in *. rewrite fold_right_app in Hs.
  assert (Hm : forall l (a : nat), a <= fold_right Nat.add a l).
  { induction l; simpl; intros; [lia|]. specialize (IHl a0). lia. }
  specialize (Hm (map ats pre) (fold_right Nat.add 0 (map ats rest))). lia.
Qed.

Lemma resolve_reachable dicts : forall ps o o' rest, reachable attr none dicts o ->
  resolve isnone attr dicts o ps = (o', rest) -> reachable attr none dicts o'.
Proof.
  induction ps as [|p ps IH]; intros o o' rest Ho E.
  - injection E as <- _. exact Ho.
  - assert (Hd : forall v, find_dicts p dicts = Some v -> reachable attr none dicts v).
    { clear. induction dicts as [|d ds IHd] in |- *; [discriminate|]. intros v E.
      assert (Hsub : forall v, reachable attr none ds v -> reachable attr none (d :: ds) v).
      { induction 1; [eapply reach_value; eauto; right; eauto|apply reach_none|eapply reach_attr; eauto]. }
      cbn [find_dicts] in E. destruct (lookup p d) eqn:El.
      - injection E as <-. eapply reach_value; [left; reflexivity|exact El].
      - apply Hsub. apply IHd. exact E. }
    assert (Ha : match attr o p with Some o1 => resolve isnone attr dicts o1 ps | None => (o, p :: ps) end = (o', rest) ->
                 reachable attr none dicts o').
    { destruct (attr o p) as [o1|] eqn:Eo; intros E1.
      - eapply IH; [|exact E1]. eapply reach_attr; eauto.
      - injection E1 as <- _. exact Ho. }
    cbn [resolve] in E. destruct (isnone o); [|auto].
    destruct (find_dicts p dicts) as [v|] eqn:Ef; [|auto]. eapply IH; [|exact E]. auto.
Qed.

Definition values_plain dicts : Prop :=
  forall m o rest, resolve isnone attr dicts none (split_c 46%N m) = (o, rest) ->
    isnone o = false -> ~ In 64%N (show o).

Lemma pass_ats dicts : isnone none = true -> values_plain dicts -> forall k x, length x <= k ->
  ats (fst (pass dicts x)) <= ats x /\ snd (pass dicts x) <= ats x.
Proof.
  intros Hnone Hv. induction k as [|k IH]; intros x Hx.
  - destruct x; [|simpl in Hx; lia]. cbn. lia.
  - destruct x as [|c x]; [cbn; lia|].
    destruct (match_macro uw (c :: x)) as [[[m w] r]|] eqn:E.
    + rewrite (pass_match _ _ _ _ _ E). pose proof (match_macro_split _ _ _ _ E) as (Ex & n & -> & _ & Hn & q & -> & Hq).
      rewrite Ex. cbn [fst snd]. rewrite !ats_app.
      assert (Hr : length r <= k).
      { apply (f_equal (@length _)) in Ex. rewrite !app_length in Ex. simpl in Ex, Hx. lia. }
      destruct (IH r Hr) as [I1 I2].
      assert (Hs : ats (substitute dicts (64%N :: n) ((64%N :: n) ++ q)) <= 1).
      { apply substitute_ats; auto. intros o rest. apply Hv. }
      assert (H1 : 1 <= ats (64%N :: n)).
      { change (64%N :: n) with ([64%N] ++ n). rewrite ats_app. cbn. lia. }
      lia.
    + assert (Ep : pass dicts (c :: x) = (c :: fst (pass dicts x), snd (pass dicts x))).
      { unfold Macros.pass at 1. cbn [length Macros.subn]. rewrite E.
        fold (pass dicts x). destruct (pass dicts x). reflexivity. }
      rewrite Ep. cbn [fst snd]. simpl in Hx. destruct (IH x ltac:(lia)) as [I1 I2].
      assert (Ha : forall y, ats (c :: y) = ats [c] + ats y) by (intros y; apply (ats_app [c] y)).
      rewrite (Ha (fst (pass dicts x))), (Ha x). lia.
Qed.

Lemma loop_terminates dicts : isnone none = true -> values_plain dicts -> forall rounds s n last,
  n <= ats s \/ n <= last + rounds -> ats s <= last + rounds -> exists r, macro_loop rounds dicts s n last = Some r.
Proof.
  intros Hnone Hv. induction rounds as [|rounds IH]; intros s n last Hn Hs.
  - cbn [Macros.macro_loop]. destruct (Nat.ltb_spec last n) as [Hlt|]; [lia|].
    rewrite andb_false_r. eauto.
  - cbn [Macros.macro_loop]. destruct (Nat.ltb 0 n && Nat.ltb last n) eqn:E; [|eauto].
    apply andb_true_iff in E as [_ E]. apply Nat.ltb_lt in E.
    destruct (pass_ats dicts Hnone Hv (length s) s (le_n _)) as [P1 P2].
    destruct (pass dicts s) as [s' n'] eqn:Ep. cbn [fst snd] in *.
    apply IH; lia.
Qed.
End P.
