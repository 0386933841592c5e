(** C24: classes for widths in percent. *)
From Coq Require Import List Bool Arith NArith ZArith QArith Qround Lia Lqa.
From Verif.Base Require Import Str StrFacts Dict DictFacts Result.
From Verif.Model Require Import Attributes Width.
From Verif.Spec Require Import Width.
Import ListNotations.

Lemma ceil_gt q z : (inject_Z z < q)%Q <-> (z < Qceiling q)%Z.
Proof.
  split; intros H.
  - rewrite Zlt_Qlt. eapply Qlt_le_trans; [exact H|apply Qle_ceiling].
  - apply Qnot_le_lt. intros Hn. apply Qceiling_resp_le in Hn. rewrite Qceiling_Z in Hn. lia.
Qed.
Lemma ceil_le q z : (q <= inject_Z z)%Q <-> (Qceiling q <= z)%Z.
Proof.
  split; intros H.
  - apply Qceiling_resp_le in H. rewrite Qceiling_Z in H. exact H.
  - eapply Qle_trans; [apply Qle_ceiling|]. rewrite <- Zle_Qle. exact H.
Qed.
Lemma in_window_ceil lo hi q : in_window (inject_Z lo) (inject_Z hi) q <-> (lo < Qceiling q <= hi)%Z.
Proof. unfold in_window. rewrite ceil_gt, ceil_le. tauto. Qed.
Lemma class_cases q n c t : class_of q n c t ->
  (0 < Qceiling q)%Z /\ find_window windows (Qceiling q) = Some c /\ last_window tex_windows (Qceiling q) = Some t.
Proof.
  intros H. destruct H as [q H|q H|q H|q H|q H|q H].
  all: apply (in_window_ceil _ _ q) in H; (split; [lia|]).
  all: unfold last_window, windows, tex_windows; cbn [rev app find_window];
    repeat match goal with |- context [(?a <? ?b)%Z && (?b <=? ?c)%Z] =>
      first [ replace ((a <? b)%Z && (b <=? c)%Z) with true by (symmetry; apply andb_true_iff; split; [apply Z.ltb_lt|apply Z.leb_le]; lia)
            | replace ((a <? b)%Z && (b <=? c)%Z) with false by (symmetry; apply andb_false_iff;
                first [left; apply Z.ltb_ge; lia|right; apply Z.leb_gt; lia]) ] end; auto.
Qed.

Section Width.
Variables (to_float : str -> option num) (times100 : num -> num).
(** the width of [d] for the target is the text [x], which is [q] percent *)
Definition has_percent (d : attrs) (target : option str) (x : str) (q : Q) : Prop :=
  (exists kv, find_item d (RKey (lit "width")) target = Some kv) /\
  get d (RKey (lit "width")) target (VStr nil) = VStr x /\
  In 37%N x /\ to_float (strip_c 37%N (strip x)) = Some (Fin q).
Lemma percentage_q x q : In 37%N x -> to_float (strip_c 37%N (strip x)) = Some (Fin q) ->
  percentage to_float times100 x = Ok (Some (Z.abs (Qceiling q))).
Proof. intros H1 H2. unfold percentage. rewrite (proj2 (mem_In 37%N x) H1), H2. reflexivity. Qed.

(** C24: in html, a width gets the class of its window, added to the classes
    there are; no other attribute changes. *)
Theorem C24_html_class :
  forall (d : attrs) target x q n c t, has_percent d target x q -> class_of q n c t ->
    (forall v, lookup (lit "class") d = Some v -> exists y, v = VStr y) ->
    exists d', xhtml_percentwidth to_float times100 d target = Ok d' /\
      lookup (lit "class") d' = Some (VStr (match lookup (lit "class") d with
                                            | Some (VStr y) => y ++ lit " " ++ c
                                            | _ => c
                                            end)) /\
      (forall k, k <> lit "class" -> lookup k d' = lookup k d).
Proof.
  intros d target x q n c t ((kv & Hf) & Hg & Hp & Hq) Hc Hcls. unfold xhtml_percentwidth.
  rewrite Hf, Hg. cbn [value_percentage]. rewrite (percentage_q x q Hp Hq). cbn [bind].
  destruct (class_cases q n c t Hc) as (Hpos & Hw & _). rewrite Z.abs_eq by lia. rewrite Hw.
  destruct (lookup (lit "class") d) as [v|] eqn:El.
  - destruct (Hcls v eq_refl) as [y ->]. eexists. split; [reflexivity|]. split; [apply lookup_set_eq|].
    intros k Hk. apply lookup_set_neq. congruence.
  - eexists. split; [reflexivity|]. split; [apply lookup_set_eq|]. intros k Hk. apply lookup_set_neq. congruence.
Qed.
(** C24: in tex, the width becomes a part of the text width. *)
Theorem C24_tex_width :
  forall (d : attrs) target x q n c t, has_percent d target x q -> class_of q n c t ->
    exists d', tex_percentwidth to_float times100 d target false = Ok d' /\
      lookup (lit "width") d' = Some (VStr t) /\ (forall k, k <> lit "width" -> lookup k d' = lookup k d).
Proof.
  intros d target x q n c t ((kv & Hf) & Hg & Hp & Hq) Hc. unfold tex_percentwidth.
  rewrite Hf, Hg. cbn [value_percentage]. rewrite (percentage_q x q Hp Hq). cbn [bind].
  destruct (class_cases q n c t Hc) as (Hpos & _ & Hw). rewrite Z.abs_eq by lia. rewrite Hw.
  eexists. split; [reflexivity|]. split; [apply lookup_set_eq|]. intros k Hk. apply lookup_set_neq. congruence.
Qed.
End Width.

(** C24: a width has at most one class, and a wider one has no narrower class. *)
Theorem C24_monotone :
  forall q q' n n' c c' t t', class_of q n c t -> class_of q' n' c' t' -> (q <= q')%Q -> (n <= n')%nat.
Proof.
  intros q q' n n' c c' t t' H H' L. unfold in_window in *.
  destruct H as [q H|q H|q H|q H|q H|q H], H' as [q' H'|q' H'|q' H'|q' H'|q' H'|q' H']; unfold in_window in *; try lia; exfalso; lra.
Qed.
Theorem C24_unique :
  forall q n n' c c' t t', class_of q n c t -> class_of q n' c' t' -> n = n' /\ c = c' /\ t = t'.
Proof.
  intros q n n' c c' t t' H H'.
  destruct H as [q H|q H|q H|q H|q H|q H]; inversion H' as [? K|? K|? K|? K|? K|? K]; subst; unfold in_window in *; auto; exfalso; lra.
Qed.
(** C24: every width up to 100% has a class, except between 33% and 34%. *)
Theorem C24_every_width_partial :
  forall q, (0 < q <= 100)%Q -> ~ (33 < q <= 34)%Q -> exists n c t, class_of q n c t.
Proof.
  intros q H Hn.
  destruct (Qlt_le_dec 75 q); [do 3 eexists; apply w100; split; [assumption|apply H]|].
  destruct (Qlt_le_dec 67 q); [do 3 eexists; apply w75; split; assumption|].
  destruct (Qlt_le_dec 50 q); [do 3 eexists; apply w66; split; assumption|].
  destruct (Qlt_le_dec 34 q); [do 3 eexists; apply w50; split; assumption|].
  destruct (Qlt_le_dec 33 q); [exfalso; apply Hn; split; assumption|].
  destruct (Qlt_le_dec 25 q); [do 3 eexists; apply w33; split; assumption|].
  do 3 eexists. apply w25. split; [apply H|assumption].
Qed.
(** C24 (finding): a width of 34% gets no class in html, and stays as it is in tex. *)
Definition ex_float (x : str) : option num :=
  if eqb x (lit "34") then Some (Fin 34) else if eqb x (lit "33.4") then Some (Fin (334 # 10))
  else if eqb x (lit "50") then Some (Fin 50) else if eqb x (lit "inf") then Some Inf else None.
Theorem C24_every_width_refuted :
  ~ (forall to_float times100 (d : attrs) target x q, has_percent to_float d target x q -> (0 < q <= 100)%Q ->
       exists d' c, xhtml_percentwidth to_float times100 d target = Ok d' /\ lookup (lit "class") d' = Some c).
Proof.
  intros H. destruct (H ex_float (fun v => v) [(lit "width", VStr (lit "34%"))] None (lit "34%") (34 : Q)) as (d' & c & E & L).
  - split; [eexists; reflexivity|]. split; [reflexivity|]. split; [vm_compute; tauto|reflexivity].
  - split; [reflexivity|discriminate].
  - vm_compute in E. injection E as <-. discriminate L.
Qed.
(** C24 (finding): an infinite width is an error that nobody catches. *)
Theorem C24_infinite_refuted :
  ~ (forall to_float times100 (d : attrs) target, is_ok (xhtml_percentwidth to_float times100 d target) = true).
Proof.
  intros H. specialize (H ex_float (fun v => v) [(lit "width", VStr (lit "inf%"))] None). discriminate H.
Qed.
Example C24_ex :
  has_percent ex_float [(lit "class", VStr (lit "c")); (lit "width", VStr (lit "50%"))] (Some (lit ".html")) (lit "50%") 50 /\
  class_of 50 50 (lit "w50") (lit "0.49\textwidth") /\
  xhtml_percentwidth ex_float (fun v => v) [(lit "class", VStr (lit "c")); (lit "width", VStr (lit "50%"))] (Some (lit ".html")) =
    Ok [(lit "class", VStr (lit "c w50")); (lit "width", VStr (lit "50%"))].
Proof.
  split; [|split].
  - split; [eexists; reflexivity|]. split; [reflexivity|]. split; [vm_compute; tauto|reflexivity].
  - apply w50. split; [reflexivity|discriminate].
  - reflexivity.
Qed.
