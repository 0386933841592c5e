From Coq Require Import List Bool Arith NArith Lia.
From Verif.Base Require Import Str StrFacts Dict DictFacts Result.
From Verif.Model Require Import ListUtils Table.
From Verif.Spec Require Import ListUtils Table.
From Verif.Proof Require Import ListUtils.
Import ListNotations.

(** The reader over characters *)
Fixpoint run (d : char) (bol : bool) (s : cursor) (x : str) : result (list (list str)) :=
  match x with
  | nil => if bol then Ok (if at_start s then [] else [snd s ++ [snd (fst s)]])
           else do s2 <- csv_step d s None ; Ok [if at_start s2 then snd s2 else snd s2 ++ [snd (fst s2)]]
  | c :: r =>
      do s1 <- csv_step d s (Some c) ;
      if N.eqb c 10 then
        do s2 <- csv_step d s1 None ;
        if at_start s2 then do rest <- run d true fresh r ; Ok (snd s2 :: rest) else run d true s2 r
      else run d false s1 r
  end.
Lemma feed_app d a : forall s b, feed d s (a ++ b) = do s' <- feed d s a ; feed d s' b.
Proof. induction a as [|c a IH]; intros s b; [reflexivity|]. cbn [app feed]. destruct (csv_step d s (Some c)) as [s'|]; cbn [bind]; auto. Qed.
Lemma read_run d x : forall cur s s0, feed d s0 cur = Ok s -> read_rows d s0 (stream_lines cur x) = run d (match cur with nil => true | _ => false end) s x.
Proof.
  induction x as [|c x IH]; intros cur s s0 E; cbn [stream_lines run].
  - destruct cur as [|a cur].
    + injection E as <-. reflexivity.
    + cbn [read_rows]. rewrite E. cbn [bind]. destruct (csv_step d s None) as [s2|]; cbn [bind]; auto. destruct (at_start s2) eqn:A; [reflexivity|]. cbn [read_rows]; rewrite ?A; reflexivity.
  - assert (F : feed d s0 (cur ++ [c]) = csv_step d s (Some c)) by (rewrite feed_app, E; cbn [bind feed]; destruct (csv_step d s (Some c)); reflexivity).
    destruct (N.eqb c 10) eqn:C.
    + cbn [read_rows]. rewrite F. destruct (csv_step d s (Some c)) as [s1|]; cbn [bind]; auto. destruct (csv_step d s1 None) as [s2|]; cbn [bind]; auto.
      destruct (at_start s2); [rewrite (IH [] fresh fresh eq_refl); reflexivity|apply (IH [] s2 s2 eq_refl)].
    + destruct (csv_step d s (Some c)) as [s1|e] eqn:S1; cbn [bind].
      * rewrite (IH (cur ++ [c]) s1 s0 F). destruct cur; reflexivity.
      * assert (G : forall x cur, feed d s0 cur = Raise e -> cur <> [] -> read_rows d s0 (stream_lines cur x) = Raise e).
        { clear - s0. induction x as [|y x IHx]; intros cur F N; cbn [stream_lines].
          - destruct cur; [congruence|]. cbn [read_rows]. now rewrite F.
          - assert (F2 : feed d s0 (cur ++ [y]) = Raise e) by (rewrite feed_app, F; reflexivity). destruct (N.eqb y 10); [cbn [read_rows]; now rewrite F2|]. apply IHx; auto. destruct cur; discriminate. }
        apply G; auto. destruct cur; discriminate.
Qed.
Lemma csv_run d x : csv_reader d x = run d true fresh x.
Proof. apply (read_run d x [] fresh fresh eq_refl). Qed.

Section Reader.
Variable d : char.
Hypothesis U : usable d.

(** The states after the text of a cell *)
Definition after (c : str) (fs : list str) (s : cursor) : Prop :=
  s = (StartField, c, fs) /\ c = [] \/ s = (InField, c, fs) \/ s = (QuoteInQuoted, c, fs).
Lemma after_delim c fs s : after c fs s -> csv_step d s (Some d) = Ok (StartField, [], fs ++ [c]).
Proof.
  destruct U as (U1 & U2 & U3 & U4 & U5). intros H.
  assert (E1 : N.eqb d 34 = false) by now apply N.eqb_neq. assert (E2 : N.eqb d 32 = false) by now apply N.eqb_neq.
  assert (E3 : is_crnl d = false) by (unfold is_crnl; apply orb_false_iff; split; now apply N.eqb_neq).
  assert (E4 : eqb (Some d) (Some 0%N) = false) by (apply eqb_neq; congruence).
  destruct H as [[-> ->]|[-> | ->]]; cbn [csv_step]; rewrite E4, ?E3, ?E1, ?E2, N.eqb_refl; reflexivity.
Qed.
Lemma after_nl c fs s : after c fs s -> csv_step d s (Some 10%N) = Ok (EatCrnl, [], fs ++ [c]).
Proof.
  destruct U as (U1 & U2 & U3 & U4 & U5). intros H. assert (E1 : N.eqb 10 d = false) by (apply N.eqb_neq; congruence).
  destruct H as [[-> ->]|[-> | ->]]; cbn [csv_step]; rewrite ?E1; reflexivity.
Qed.
Lemma after_end c fs s : after c fs s -> csv_step d s None = Ok (StartRecord, [], fs ++ [c]).
Proof. intros H. destruct H as [[-> ->]|[-> | ->]]; reflexivity. Qed.

Lemma leads_char s c s' : c <> 10%N -> csv_step d s (Some c) = Ok s' -> forall bol r, run d bol s (c :: r) = run d false s' r.
Proof. intros N E bol r. cbn [run]. rewrite E. cbn [bind]. now rewrite (proj2 (N.eqb_neq c 10) N). Qed.

Lemma plain_in (c : str) : (forall x, In x c -> x <> d /\ x <> 10%N /\ x <> 13%N /\ x <> 0%N) -> forall f fs bol r, c <> [] ->
  run d bol (InField, f, fs) (c ++ r) = run d false (InField, f ++ c, fs) r.
Proof.
  induction c as [|x c IH]; intros H f fs bol r N; [congruence|]. cbn [app].
  destruct (H x (or_introl eq_refl)) as (H1 & H2 & H3 & H4).
  rewrite (leads_char _ x (InField, f ++ [x], fs)); auto.
  - destruct c as [|y c]; [reflexivity|]. rewrite IH by (try discriminate; intros; apply H; now right). now rewrite <- app_assoc.
  - cbn [csv_step]. rewrite (proj2 (eqb_neq (Some x) (Some 0%N))) by congruence.
    unfold is_crnl. rewrite (proj2 (N.eqb_neq x 10) H2), (proj2 (N.eqb_neq x 13) H3), (proj2 (N.eqb_neq x d) H1). reflexivity.
Qed.
Lemma quoted_in (c : str) : ~ In 0%N c -> forall f fs bol r, exists b,
  run d bol (InQuoted, f, fs) (doubled c ++ r) = run d b (InQuoted, f ++ c, fs) r.
Proof.
  induction c as [|x c IH]; intros H f fs bol r; [exists bol; cbn; now rewrite app_nil_r|].
  assert (H0 : x <> 0%N) by (intros ->; apply H; now left). assert (H' : ~ In 0%N c) by (intros C; apply H; now right).
  cbn [doubled flat_map]. fold (doubled c). unfold quote. destruct (N.eqb_spec x 34) as [->|N].
  - cbn [app]. rewrite (leads_char _ 34%N (QuoteInQuoted, f, fs)) by (discriminate || reflexivity). rewrite (leads_char _ 34%N (InQuoted, f ++ [34%N], fs)) by (discriminate || reflexivity).
    destruct (IH H' (f ++ [34%N]) fs false r) as [b E]. exists b. rewrite E, <- app_assoc. reflexivity.
  - cbn [app].
    assert (E1 : csv_step d (InQuoted, f, fs) (Some x) = Ok (InQuoted, f ++ [x], fs)).
    { cbn [csv_step]. rewrite (proj2 (eqb_neq (Some x) (Some 0%N))) by congruence. now rewrite (proj2 (N.eqb_neq x 34) N). }
    destruct (N.eq_dec x 10) as [->|N10].
    + destruct (IH H' (f ++ [10%N]) fs true r) as [b E]. exists b. cbn [run]. rewrite E1. cbn [bind]. change (N.eqb 10 10) with true. cbv iota. cbn [csv_step]. change (eqb None (Some 0%N)) with false. cbv iota. cbn [bind at_start fst]. rewrite E, <- app_assoc. reflexivity.
    + destruct (IH H' (f ++ [x]) fs false r) as [b E]. exists b. rewrite (leads_char _ x _ N10 E1), E, <- app_assoc. reflexivity.
Qed.
(** A cell, from the start of a field or, if the text is not empty, of a record *)
Definition nb (bol : bool) (t : str) : bool := match t with nil => bol | _ => false end.
Lemma cell_run c t : written d c t -> forall fs bol r st, st = StartField \/ st = StartRecord /\ t <> [] ->
  exists s, after c fs s /\ run d bol (st, [], fs) (t ++ r) = run d (nb bol t) s r.
Proof.
  intros W. induction W as [[P1 P2]|N|t W IH]; intros fs bol r st Hst.
  - destruct c as [|x c].
    + destruct Hst as [->|[_ C]]; [|congruence]. exists (StartField, [], fs). split; [left; auto|reflexivity].
    + destruct (P1 x (or_introl eq_refl)) as (H1 & H2 & H3 & H4). destruct (P2 x c eq_refl) as [H5 H6]. unfold quote in H5.
      exists (InField, x :: c, fs). split; [right; left; auto|]. cbn [app nb].
      assert (E : csv_step d (st, [], fs) (Some x) = Ok (InField, [x], fs)).
      { assert (Z : eqb (Some x) (Some 0%N) = false) by (apply eqb_neq; congruence).
        assert (Z1 : is_crnl x = false) by (unfold is_crnl; apply orb_false_iff; split; now apply N.eqb_neq).
        destruct Hst as [->|[-> _]]; cbn [csv_step]; rewrite Z, ?Z1; rewrite (proj2 (N.eqb_neq x 34) H5), (proj2 (N.eqb_neq x 32) H6), (proj2 (N.eqb_neq x d) H1); reflexivity. }
      rewrite (leads_char _ x _ H2 E). destruct c as [|y c]; [reflexivity|]. rewrite (plain_in (y :: c)); [reflexivity| |discriminate]. intros z Hz. apply P1. now right.
  - unfold quote. assert (E : csv_step d (st, [], fs) (Some 34%N) = Ok (InQuoted, [], fs)) by (destruct Hst as [->|[-> _]]; reflexivity).
    cbn [app nb]. rewrite <- app_assoc. cbn [app]. destruct (quoted_in c N [] fs false (34%N :: r)) as [b E2].
    exists (QuoteInQuoted, c, fs). split; [right; right; reflexivity|].
    rewrite (leads_char _ 34%N _ ltac:(discriminate) E). cbn [app] in E2. unfold quote in E2. rewrite E2. apply leads_char; [discriminate|reflexivity].
  - cbn [app nb]. assert (E : csv_step d (st, [], fs) (Some 32%N) = Ok (StartField, [], fs)) by (destruct Hst as [->|[-> _]]; reflexivity).
    destruct (IH fs false r StartField (or_introl eq_refl)) as (s & A & E2). exists s. split; auto.
    rewrite (leads_char _ 32%N _ ltac:(discriminate) E), E2. destruct t; reflexivity.
Qed.
Lemma d_nl : d <> 10%N. Proof. destruct U as (_ & _ & H & _). exact H. Qed.
(** A row: its cells are read, up to the end of the last. *)
Lemma row_run row ts : Forall2 (written d) row ts -> row <> [] -> forall fs bol r st, st = StartField \/ st = StartRecord /\ join [d] ts <> [] ->
  exists s c fs', after c fs' s /\ fs' ++ [c] = fs ++ row /\ run d bol (st, [], fs) (join [d] ts ++ r) = run d (nb bol (join [d] ts)) s r.
Proof.
  intros F. induction F as [|c t row ts W F IH]; intros N fs bol r st Hst; [congruence|].
  destruct F as [|c2 t2 row ts W2 F].
  - cbn [join] in *. destruct (cell_run c t W fs bol r st Hst) as (s & A & E). exists s, c, fs. auto.
  - rewrite join_cons in * by discriminate. set (rest := join [d] (t2 :: ts)) in *. rewrite <- !app_assoc. cbn [app].
    assert (Hst2 : st = StartField \/ st = StartRecord /\ t <> [] \/ st = StartRecord /\ t = []) by (destruct Hst as [->|[-> _]]; [now left|destruct t; [right; right|right; left]; split; auto; discriminate]).
    assert (X : exists b s, after c fs s /\ run d bol (st, [], fs) (t ++ d :: rest ++ r) = run d b s (d :: rest ++ r)).
    { destruct Hst2 as [->|[[-> Ht]|[-> ->]]].
      - destruct (cell_run c t W fs bol (d :: rest ++ r) StartField (or_introl eq_refl)) as (s & A & E). eauto.
      - destruct (cell_run c t W fs bol (d :: rest ++ r) StartRecord (or_intror (conj eq_refl Ht))) as (s & A & E). eauto.
      - assert (c = []) as -> by (inversion W; auto). exists bol, (StartField, [], fs). split; [left; auto|]. cbn [app].
        rewrite (leads_char (StartField, [], fs) d _ d_nl (after_delim [] fs (StartField, [], fs) ltac:(left; auto))). apply leads_char; [apply d_nl|].
        pose proof (after_delim [] fs (StartField, [], fs) ltac:(left; auto)) as G. destruct U as (U1 & U2 & U3 & U4 & U5). cbn [csv_step] in *. etransitivity; [|exact G].
        destruct (eqb (Some d) (Some 0%N)); auto. unfold is_crnl. now rewrite (proj2 (N.eqb_neq d 10) U3), (proj2 (N.eqb_neq d 13) U4). }
    destruct X as (b & s & A & E). rewrite E. rewrite (leads_char _ d _ d_nl (after_delim c fs s A)).
    destruct (IH ltac:(discriminate) (fs ++ [c]) false r StartField (or_introl eq_refl)) as (s' & c' & fs' & A' & Ef & E').
    exists s', c', fs'. split; auto. split; [rewrite Ef, <- app_assoc; reflexivity|]. rewrite E'.
    assert (nb bol (t ++ d :: rest) = false) as -> by (destruct t; reflexivity). assert (nb false rest = false) as -> by (destruct rest; reflexivity). reflexivity.
Qed.
Lemma row_end row t : written_row d row t -> run d true fresh t = Ok [row] /\ forall x, run d true fresh (t ++ 10%N :: x) = do rest <- run d true fresh x ; Ok (row :: rest).
Proof.
  intros (ts & F & -> & N). assert (Nr : row <> []) by (intros ->; inversion F; subst; cbn in N; congruence).
  assert (Hn : nb true (join [d] ts) = false) by (destruct (join [d] ts); [congruence|reflexivity]).
  split.
  - destruct (row_run row ts F Nr [] true [] StartRecord (or_intror (conj eq_refl N))) as (s & c & fs & A & Ef & E). rewrite app_nil_r in E. unfold fresh. rewrite E, Hn. cbn [run]. rewrite (after_end c fs s A). cbn [bind at_start fst snd]. now rewrite Ef.
  - intros x. destruct (row_run row ts F Nr [] true (10%N :: x) StartRecord (or_intror (conj eq_refl N))) as (s & c & fs & A & Ef & E). unfold fresh at 1. rewrite E, Hn. cbn [run]. rewrite (after_nl c fs s A). cbn [bind]. change (N.eqb 10 10) with true. cbv iota.
    cbn [csv_step]. change (eqb None (Some 0%N)) with false. cbv iota. cbn [bind at_start fst snd]. rewrite Ef. reflexivity.
Qed.
Lemma table_run rows x : written_table d rows x -> run d true fresh x = Ok rows.
Proof.
  intros W. induction W as [row t R| |row t rows x R W IH]; [apply (row_end row t R)|reflexivity|]. destruct (row_end row t R) as [_ E]. rewrite E, IH. reflexivity.
Qed.
End Reader.

(** Columns *)
Lemma from_columns_named l : forall i t, NoDup (map fst l) -> (forall h, In h (map fst l) -> has (Named h) t = false) ->
  from_columns i false l t = t ++ map (fun p => (Named (fst p), snd p)) l.
Proof.
  induction l as [|[h c] l IH]; intros i t Nd H; [cbn; now rewrite app_nil_r|]. cbn [from_columns map fst snd] in *. inversion Nd; subst.
  rewrite set_new by (apply H; now left). rewrite IH; [rewrite <- app_assoc; reflexivity|auto|].
  intros h' Hh. apply has_false. unfold keys. rewrite map_app. cbn [map fst]. intros C. apply in_app_or in C. destruct C as [C|[C|[]]]; [|congruence]. apply (proj1 (has_false (Named h') t)); auto. apply H. now right.
Qed.
Lemma from_columns_numbered l : forall i t, (forall j, i <= j -> has (Numbered j) t = false) ->
  from_columns i true l t = t ++ map (fun q => (Numbered (fst q), snd q)) (combine (seq i (length l)) (map (fun p => fst p :: snd p) l)).
Proof.
  induction l as [|[h c] l IH]; intros i t H; [cbn; now rewrite app_nil_r|]. cbn [from_columns map fst snd length seq combine].
  rewrite set_new by (apply H; lia). rewrite IH; [rewrite <- app_assoc; reflexivity|].
  intros j Hj. apply has_false. unfold keys. rewrite map_app. cbn [map fst]. intros C. apply in_app_or in C. destruct C as [C|[C|[]]]; [|injection C as ->; lia]. apply (proj1 (has_false (Numbered j) t)); auto. apply H. lia.
Qed.

(** Rows in tex *)
Definition no_escaped_amp (c : str) : Prop := forall a b, c <> a ++ 92%N :: 38%N :: b.
Lemma cell_tex_run c : forall e cur r, no_escaped_amp c -> (e = true -> forall b, c <> 38%N :: b) ->
  tex_columns e cur (cell_tex c ++ 32%N :: r) = tex_columns false (cur ++ cell_tex c ++ [32%N]) r.
Proof.
  induction c as [|x c IH]; intros e cur r N He.
  - cbn [cell_tex flat_map app tex_columns]. reflexivity.
  - assert (N' : no_escaped_amp c) by (intros a b E; apply (N (x :: a) b); now rewrite E).
    cbn [cell_tex flat_map]. fold (cell_tex c). destruct (N.eqb_spec x 38) as [->|Nx].
    + assert (e = false) as -> by (destruct e; auto; exfalso; now apply (He eq_refl c)). cbn [app tex_columns].
      change (N.eqb 92 38 && negb false) with false. change (N.eqb 92 92 && negb false) with true. cbv iota. change (N.eqb 38 38 && negb true) with false. cbv iota. change (N.eqb 38 92 && negb true) with false.
      rewrite IH by (auto; discriminate). rewrite <- !app_assoc. reflexivity.
    + cbn [app tex_columns]. rewrite (proj2 (N.eqb_neq x 38) Nx). cbn [andb]. rewrite IH; auto.
      * rewrite <- !app_assoc. reflexivity.
      * intros H b ->. apply andb_true_iff in H as [H _]. apply N.eqb_eq in H. subst x. now apply (N [] b).
Qed.
