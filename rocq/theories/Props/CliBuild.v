(** Property C85: the command that builds projects, and its table *)
From Coq Require Import List Bool Arith NArith Lia.
From Verif.Base Require Import Str StrFacts Result.
From Verif.Model Require Import CliBuild.
From Verif.Spec Require Import CliBuild.
Import ListNotations.

(** * Tables *)
Lemma ljust_length s w : length s <= w -> length (ljust s w) = w.
Proof. intros L. unfold ljust. rewrite app_length, repeat_length. lia. Qed.
Lemma row_cons w ws v vs : table_row (w :: ws) (v :: vs) = ljust v w ++ table_row ws vs.
Proof. reflexivity. Qed.

(** With one value for every column, none wider than the column, every value starts
    where the columns before it end, and the line is as wide as the columns. *)
Theorem C85_columns : forall ws vs, length vs = length ws ->
  (forall i v w, nth_error vs i = Some v -> nth_error ws i = Some w -> length v <= w) ->
  length (table_row ws vs) = list_sum ws /\
  forall i v, nth_error vs i = Some v -> at_column (list_sum (firstn i ws)) v (table_row ws vs).
Proof.
  induction ws as [|w ws IH]; intros [|v vs] L F; try discriminate.
  - split; [reflexivity|]. intros [|i] v E; discriminate.
  - cbn [length] in L. destruct (IH vs) as [I1 I2]; [lia|intros i; exact (F (S i))|].
    assert (Lv : length v <= w) by (exact (F 0 v w eq_refl eq_refl)).
    rewrite row_cons. split; [rewrite app_length, ljust_length by exact Lv; rewrite I1; reflexivity|].
    intros [|i] x E; cbn [nth_error firstn] in *.
    + assert (x = v) as -> by congruence. exists nil, (repeat 32%N (w - length v) ++ table_row ws vs). split; [|reflexivity].
      unfold ljust. now rewrite <- app_assoc.
    + destruct (I2 i x E) as (a & b & Q & K). exists (ljust v w ++ a), b. rewrite Q. split; [now rewrite <- app_assoc|].
      rewrite app_length, ljust_length, K by exact Lv. reflexivity.
Qed.

Lemma row3 a b c w1 w2 w3 : length a <= w1 -> length b <= w2 ->
  at_column 0 a (table_row [w1; w2; w3] [a; b; c]) /\ at_column w1 b (table_row [w1; w2; w3] [a; b; c]) /\ at_column (w1 + w2) c (table_row [w1; w2; w3] [a; b; c]).
Proof.
  intros La Lb. rewrite !row_cons. change (table_row nil nil) with (@nil N). rewrite app_nil_r. split; [|split].
  - exists nil. eexists. split; [unfold ljust at 1; rewrite <- app_assoc; reflexivity|reflexivity].
  - exists (ljust a w1). eexists. split; [unfold ljust at 2; rewrite <- !app_assoc; reflexivity|]. now apply ljust_length.
  - exists (ljust a w1 ++ ljust b w2). eexists. split; [unfold ljust at 3; rewrite <- !app_assoc; reflexivity|].
    rewrite app_length, !ljust_length by assumption. reflexivity.
Qed.

(** The rows of progress have their values below the headers, and two spaces at
    least between the columns. *)
Theorem C85_aligned : forall percent name ndocs statuses r, progress_row percent name ndocs statuses = Ok r ->
  exists h bar k1 k2 done total, table_hdr (progress_widths name ndocs) hdrs = Ok [h; bar] /\
    at_column 0 (lit "Environment") h /\ at_column k1 (lit "Number Docs") h /\ at_column k2 (lit "Done / Total Builds (%)") h /\
    at_column 0 name r /\ at_column k1 ndocs r /\
    at_column k2 (str_of_nat done ++ lit " / " ++ str_of_nat total ++ lit " (" ++ percent done total ++ lit ")") r /\
    length name + 2 <= k1 /\ k1 + length ndocs + 2 <= k2 /\ 13 <= k1 /\ k1 + 13 <= k2 /\
    total = length statuses /\ done = count_occ (fun a b => list_eq_dec N.eq_dec a b) statuses (lit "done").
Proof.
  intros percent name ndocs statuses r E. unfold progress_row, progress_builders in E. cbv beta iota zeta in E.
  destruct (Nat.eqb (length statuses) 0); [discriminate|].
  set (done := length (filter (eqb (lit "done")) statuses)) in E. set (total := length statuses) in E.
  set (c := str_of_nat done ++ lit " / " ++ str_of_nat total ++ lit " (" ++ percent done total ++ lit ")") in E.
  unfold progress_widths in *. cbn [nth hdrs] in *. unfold spacing in *.
  change (length (lit "Environment")) with 11 in *. change (length (lit "Number Docs")) with 11 in *. change (length (lit "Done / Total Builds (%)")) with 23 in *.
  set (w1 := Nat.max 11 (length name) + 2) in *. set (w2 := Nat.max 11 (length ndocs) + 2) in *.
  assert (r = table_row [w1; w2; 23 + 2] [name; ndocs; c]) as -> by congruence. clear E.
  assert (N1 : length name + 2 <= w1) by (unfold w1; lia). assert (N2 : length ndocs + 2 <= w2) by (unfold w2; lia).
  assert (H1 : 13 <= w1) by (unfold w1; lia). assert (H2 : 13 <= w2) by (unfold w2; lia).
  destruct (row3 name ndocs c w1 w2 (23 + 2)) as (A1 & A2 & A3); [lia|lia|].
  destruct (row3 (lit "Environment") (lit "Number Docs") (lit "Done / Total Builds (%)") w1 w2 (23 + 2)) as (B1 & B2 & B3); [change (11 <= w1); lia|change (11 <= w2); lia|].
  eexists _, _, w1, (w1 + w2), done, total. split; [reflexivity|]. fold hdrs. fold c.
  assert (D : done = count_occ (fun a b => list_eq_dec N.eq_dec a b) statuses (lit "done")).
  { unfold done. clear. induction statuses as [|s l IH]; [reflexivity|]. cbn [filter count_occ]. destruct (eqb_spec (lit "done") s) as [Q|Q].
    - destruct (list_eq_dec N.eq_dec s (lit "done")) as [_|C]; [cbn [length]; now rewrite IH|]. now symmetry in Q.
    - destruct (list_eq_dec N.eq_dec s (lit "done")) as [C|_]; [now symmetry in C|exact IH]. }
  repeat (split; [first [assumption|lia|reflexivity]|]). exact D.
Qed.

(** A row can be printed exactly if there is a builder. *)
Theorem C85_row : forall percent name ndocs statuses,
  (exists r, progress_row percent name ndocs statuses = Ok r) <-> statuses <> nil.
Proof.
  intros percent name ndocs statuses. unfold progress_row, progress_builders. cbv beta iota zeta.
  destruct statuses as [|s l]; cbn [length Nat.eqb]; split.
  - intros (r & E). discriminate.
  - intros C. now contradict C.
  - discriminate.
  - intros _. eexists. reflexivity.
Qed.

(** * Builds *)
Section Build.
Variable state : Type.
Variable status : state -> str.
Variable build_once : state -> state * str.
Variable statuses : state -> list str.
Variable percent : nat -> nat -> str.
(** the status that a build gives is that of the builder after it *)
Hypothesis honest : forall b, snd (build_once b) = status (fst (build_once b)).
(** the first flat list of builders has the root builder *)
Hypothesis has_root : forall b, statuses b <> nil.
Notation loop := (build_loop state status build_once statuses percent).
Notation run_env := (build_env state status build_once statuses percent).
Notation next := (fun b => fst (build_once b)).
Definition built (a : act) : bool := match a with Built => true | Line _ => false end.

Lemma going_unfinished s : going s = true <-> unfinished s.
Proof. unfold going, unfinished. rewrite orb_true_iff, !eqb_eq. tauto. Qed.
Lemma rows_ok progress e b : exists l, row_acts state statuses percent progress e b = Ok l /\ filter built l = nil.
Proof.
  unfold row_acts. destruct progress; [|eexists; split; reflexivity].
  destruct (proj2 (C85_row percent (e_name _ e) (e_ndocs _ e) (statuses b)) (has_root b)) as (r & E). rewrite E. cbn [bind]. eexists. split; reflexivity.
Qed.

Lemma loop_rounds fuel progress e b r : loop fuel progress e b (status b) = Some r ->
  exists n l, r = Ok (l ++ [Line (lit "Build: " ++ status (rounds next n b))]) /\ length (filter built l) = n /\
    (forall m, m < n -> unfinished (status (rounds next m b))) /\ ~ unfinished (status (rounds next n b)).
Proof.
  revert b r. induction fuel as [|fuel IH]; intros b r E; cbn [build_loop] in E; destruct (going (status b)) eqn:G; try discriminate.
  - exists 0, nil. assert (r = Ok [Line (lit "Build: " ++ status b)]) as -> by congruence. split; [reflexivity|]. split; [reflexivity|].
    split; [intros m M; lia|]. cbn [rounds]. rewrite <- going_unfinished. congruence.
  - destruct (build_once b) as [b' s'] eqn:B. pose proof (honest b) as H. rewrite B in H. cbn [fst snd] in H.
    destruct (rows_ok progress e b') as (l & E1 & E2). rewrite E1 in E. rewrite H in E.
    destruct (loop fuel progress e b' (status b')) as [r'|] eqn:Q; [|discriminate].
    destruct (IH b' r' Q) as (n & l' & -> & N & U & F). exists (S n), (Built :: l ++ l').
    assert (X : rounds next (S n) b = rounds next n b') by (cbn [rounds]; now rewrite B).
    rewrite X. split; [cbn [app]; rewrite <- app_assoc; congruence|]. split.
    + cbn [filter built length]. rewrite filter_app, E2. cbn [app]. now rewrite N.
    + split; [|exact F]. intros [|m] M; [now apply going_unfinished|]. cbn [rounds]. rewrite B. cbn [fst]. apply U. lia.
  - exists 0, nil. assert (r = Ok [Line (lit "Build: " ++ status b)]) as -> by congruence. split; [reflexivity|]. split; [reflexivity|].
    split; [intros m M; lia|]. cbn [rounds]. rewrite <- going_unfinished. congruence.
Qed.

(** When the command ends for an environment, it has built as often as the builder was not
    finished, and no more; its last line is the status at the end, which is not
    'ready' and not 'building'. *)
Theorem C85_ends : forall fuel progress e r, run_env fuel progress e = Some r ->
  exists n l, r = Ok (l ++ [Line (lit "Build: " ++ status (rounds next n (e_builder _ e)))]) /\ length (filter built l) = n /\
    (forall m, m < n -> unfinished (status (rounds next m (e_builder _ e)))) /\ ~ unfinished (status (rounds next n (e_builder _ e))).
Proof.
  intros fuel progress e r E. unfold build_env in E. cbv zeta in E.
  assert (S : exists h, (if progress then do h <- table_hdr (progress_widths (e_name _ e) (e_ndocs _ e)) hdrs ;
      do r <- row_acts state statuses percent progress e (e_builder _ e) ; Ok (map Line h ++ r) else Ok nil) = Ok h /\ filter built h = nil).
  { destruct progress; [|eexists; split; reflexivity]. destruct (rows_ok true e (e_builder _ e)) as (l & E1 & E2). rewrite E1.
    eexists. split; [reflexivity|]. cbn [map app filter built]. exact E2. }
  destruct S as (h & S & Fh). rewrite S in E.
  destruct (loop fuel progress e (e_builder _ e) (status (e_builder _ e))) as [r'|] eqn:Q; [|discriminate].
  destruct (loop_rounds _ _ _ _ _ Q) as (n & l & -> & N & U & F). exists n, (h ++ l).
  split; [rewrite <- app_assoc; congruence|]. split; [|auto]. now rewrite filter_app, Fh.
Qed.
(** It ends if the builder is finished after some rounds. *)
Theorem C85_finishes : forall progress e n, ~ unfinished (status (rounds next n (e_builder _ e))) ->
  exists r, run_env n progress e = Some r.
Proof.
  intros progress e n U.
  assert (G : forall n b, ~ unfinished (status (rounds next n b)) -> exists r, loop n progress e b (status b) = Some r).
  { clear n U. induction n as [|n IH]; intros b U; cbn [build_loop]; destruct (going (status b)) eqn:G; eauto.
    - now contradict U; apply going_unfinished.
    - destruct (build_once b) as [b' s'] eqn:B. pose proof (honest b) as H. rewrite B in H. cbn [fst snd] in H. rewrite H.
      destruct (rows_ok progress e b') as (l & -> & _). cbn [rounds] in U. rewrite B in U. cbn [fst] in U.
      destruct (IH b' U) as (r & ->). destruct r; eauto. }
  destruct (G n _ U) as (r & E). unfold build_env. cbv zeta. rewrite E.
  destruct (if progress then _ else _); [|eauto]. destruct r; eauto.
Qed.

(** All environments are built, in order, ... *)
Theorem C85_all : forall fuel out_dir progress es r,
  cli_build state status build_once statuses percent fuel out_dir progress es = Some r -> length es <= 1 \/ out_dir = false ->
  exists ls, r = Ok (concat ls) /\ Forall2 (fun e l => run_env fuel progress e = Some (Ok l)) es ls.
Proof.
  intros fuel out_dir progress es r E H. unfold cli_build, check_out_dir in E.
  assert (N : Nat.ltb 1 (length es) && out_dir = false).
  { destruct H as [H| ->]; [|apply andb_false_r]. apply andb_false_iff. left. now apply Nat.ltb_ge. }
  rewrite N in E. clear N H. revert r E. induction es as [|e es IH]; intros r E; cbn [build_envs] in E.
  - exists nil. split; [cbn [concat]; congruence|constructor].
  - destruct (run_env fuel progress e) as [r'|] eqn:Q; [|discriminate].
    destruct (C85_ends fuel progress e r' Q) as (n & l & -> & _).
    destruct (build_envs state status build_once statuses percent fuel progress es) as [r''|] eqn:R; [|discriminate].
    destruct (IH r'' eq_refl) as (ls & -> & F). eexists (_ :: ls). split; [cbn [concat]; symmetry in E; injection E as ->; reflexivity|]. now constructor.
Qed.
(** ... but several with one output directory are refused before anything is built. *)
Theorem C85_refused : forall fuel progress es, 1 < length es ->
  cli_build state status build_once statuses percent fuel true progress es = Some (Raise OtherError).
Proof. intros fuel progress es L. unfold cli_build, check_out_dir. apply Nat.ltb_lt in L. now rewrite L. Qed.
End Build.

(** A builder that needs two rounds *)
Definition ex_status (n : nat) : str := match n with 0 => lit "done" | 1 => lit "building" | _ => lit "ready" end.
Definition ex_build (n : nat) : nat * str := (pred n, ex_status (pred n)).
Example C85_ex : let e := {| e_name := lit "report.dm"; e_ndocs := lit "3"; e_builder := 2 |} in
  (forall b, snd (ex_build b) = ex_status (fst (ex_build b))) /\
  cli_build nat ex_status ex_build (fun n => [ex_status n; lit "done"]) (fun d t => if Nat.eqb d t then lit "100.0%" else lit "50.0%") 5 true true [e] =
  Some (Ok [Line (lit "Environment  Number Docs  Done / Total Builds (%)  "); Line (lit "-----------  -----------  -----------------------  ");
            Line (lit "report.dm    3            1 / 2 (50.0%)            "); Built;
            Line (lit "report.dm    3            1 / 2 (50.0%)            "); Built;
            Line (lit "report.dm    3            2 / 2 (100.0%)           "); Line (lit "Build: done")]) /\
  ~ unfinished (ex_status (rounds (fun b => fst (ex_build b)) 2 2)).
Proof.
  cbv zeta. split; [reflexivity|]. split; [vm_compute; reflexivity|]. vm_compute. intros [C|C]; discriminate.
Qed.
