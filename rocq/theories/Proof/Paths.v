From Coq Require Import List Bool Arith NArith Lia.
From Verif.Base Require Import Str StrFacts Dict Result PurePath PyText.
From Verif.Model Require Import Paths.
From Verif.Spec Require Import Paths.
Import ListNotations.

Lemma cut_dot_spec r acc : ~ In 46%N acc ->
  match cut_dot r acc with
  | Some (s, e) => exists x, s <> nil /\ e = 46%N :: x /\ x <> nil /\ ~ In 46%N x /\ rev r ++ acc = s ++ e
  | None => forall s x, rev r ++ acc = s ++ 46%N :: x -> s <> nil -> x <> nil -> In 46%N x
  end.
Proof.
  revert acc. induction r as [|c r IH]; intros acc H; cbn [cut_dot].
  - cbn. intros s x E _ _. exfalso. apply H. rewrite E. apply in_or_app. right. now left.
  - destruct (N.eqb_spec c 46) as [->|N].
    + assert (None_ok : (r = nil \/ acc = nil) -> forall s x, rev (46%N :: r) ++ acc = s ++ 46%N :: x -> s <> nil -> x <> nil -> In 46%N x).
      { intros R s x E Hs Hx. cbn in E. rewrite <- app_assoc in E. cbn in E.
        destruct (in_dec N.eq_dec 46%N x) as [I|I]; auto. exfalso.
        assert (U : rev r = s /\ acc = x).
        { clear -E H I. revert s E. induction (rev r) as [|y l IHl]; intros s E; destruct s as [|z s]; cbn in E.
          - injection E as ->. auto.
          - injection E as <- E. exfalso. apply H. rewrite E. apply in_or_app. right. now left.
          - injection E as -> E. exfalso. apply I. rewrite <- E. apply in_or_app. right. now left.
          - injection E as -> E. destruct (IHl _ E) as [-> ->]. auto. }
        destruct U as [U1 U2]. destruct R as [R|R]; subst; [cbn in *; congruence|congruence]. }
      destruct r as [|d r].
      * apply None_ok. auto.
      * destruct acc as [|a acc]; [apply None_ok; auto|]. exists (a :: acc). split; [|split; [reflexivity|split; [discriminate|split; [auto|]]]].
        -- cbn. intros C. now apply app_eq_nil in C as [_ C].
        -- cbn. now rewrite <- !app_assoc.
    + specialize (IH (c :: acc)). cbn. rewrite <- app_assoc. cbn. apply IH. intros [C|C]; [congruence|auto].
Qed.
Lemma last_dot_inj (u1 v1 u2 v2 : str) : u1 ++ 46%N :: v1 = u2 ++ 46%N :: v2 -> ~ In 46%N v1 -> ~ In 46%N v2 -> u1 = u2 /\ v1 = v2.
Proof.
  revert u2. induction u1 as [|x u1 IH]; intros [|y u2] E H1 H2; cbn in E.
  - injection E as ->. auto.
  - injection E as <- E. exfalso. apply H1. rewrite E. apply in_or_app. right. now left.
  - injection E as -> E. exfalso. apply H2. rewrite <- E. apply in_or_app. right. now left.
  - injection E as -> E. destruct (IH _ E H1 H2) as [-> ->]. auto.
Qed.
Lemma split_name_app n : fst (split_name n) ++ snd (split_name n) = n.
Proof.
  unfold split_name. pose proof (cut_dot_spec (rev n) nil (fun x => x)) as H. destruct (cut_dot (rev n) nil) as [[s e]|]; cbn; [|apply app_nil_r].
  destruct H as (x & _ & _ & _ & _ & E). rewrite rev_involutive, app_nil_r in E. auto.
Qed.
Lemma split_name_cases n : snd (split_name n) = nil \/ (exists x, snd (split_name n) = 46%N :: x /\ x <> nil /\ ~ In 46%N x) /\ fst (split_name n) <> nil.
Proof.
  unfold split_name. pose proof (cut_dot_spec (rev n) nil (fun x => x)) as H. destruct (cut_dot (rev n) nil) as [[s e]|]; cbn; auto.
  destruct H as (x & Hs & -> & Hx & Hd & E). right. split; auto. exists x. auto.
Qed.
Lemma split_name_ext s x : s <> nil -> x <> nil -> ~ In 46%N x -> split_name (s ++ 46%N :: x) = (s, 46%N :: x).
Proof.
  intros Hs Hx Hd. unfold split_name. pose proof (cut_dot_spec (rev (s ++ 46%N :: x)) nil (fun y => y)) as H.
  destruct (cut_dot (rev (s ++ 46%N :: x)) nil) as [[s' e]|].
  - destruct H as (x' & Hs' & -> & Hx' & Hd' & E). rewrite rev_involutive, app_nil_r in E.
    destruct (last_dot_inj _ _ _ _ E Hd Hd') as [-> ->]. auto.
  - exfalso. apply Hd. rewrite rev_involutive, app_nil_r in H. eapply H; eauto.
Qed.
Lemma stem_nonnil n : n <> nil -> fst (split_name n) <> nil.
Proof.
  intros H. destruct (split_name_cases n) as [E|[_ E]]; auto. pose proof (split_name_app n) as A. rewrite E, app_nil_r in A. congruence.
Qed.

Lemma of_str_name n : n <> nil -> n <> lit "." -> ~ In 47%N n -> of_str n = mkpath false [n].
Proof.
  intros H1 H2 H3. unfold of_str. rewrite split_c_fresh by auto. cbn [filter]. unfold real_part.
  rewrite (proj2 (eqb_neq n nil) H1), (proj2 (eqb_neq n (lit ".")) H2). cbn [negb andb]. f_equal.
  destruct (startswith n (lit "/")) eqn:S; auto. apply startswith_iff in S. destruct S as (r & ->). exfalso. apply H3. now left.
Qed.
Lemma of_str_wf s : wf_path (of_str s).
Proof.
  intros x Hx. unfold of_str in Hx. cbn [parts] in Hx. apply filter_In in Hx. destruct Hx as [Hx R]. unfold real_part in R.
  apply andb_true_iff in R. destruct R as [R1 R2]. apply negb_true_iff in R1. apply negb_true_iff in R2.
  split; [now apply eqb_neq|]. split; [now apply eqb_neq|]. exact (split_c_no_sep _ _ _ Hx).
Qed.

(** The new name of a renamed path *)
Definition new_name (p : path) (f a e : option str) : str :=
  (match f with None => path_stem p | Some f => f end) ++ (match a with None => nil | Some a => a end) ++
  (let e := match e with None => path_suffix p | Some e => e end in if startswith e (lit ".") then e else lit "." ++ e).
Lemma rename_new p f a e : rename p f a e = path_join (path_parent p) (of_str (new_name p f a e)).
Proof. unfold rename, new_name. cbv zeta. destruct a; cbn [app]; [now rewrite app_assoc|reflexivity]. Qed.

Lemma dotted_cases e : exists x, (if startswith e (lit ".") then e else lit "." ++ e) = 46%N :: x.
Proof. destruct (startswith e (lit ".")) eqn:S; [|exists e; reflexivity]. apply startswith_iff in S. destruct S as (r & ->). exists r. reflexivity. Qed.
Lemma name_in p : parts p <> nil -> In (path_name p) (parts p).
Proof. intros H. unfold path_name. rewrite (app_removelast_last nil H) at 2. apply in_or_app. right. now left. Qed.
Lemma name_no_slash p : wf_path p -> ~ In 47%N (path_name p).
Proof.
  intros W. destruct (parts p) eqn:E; [unfold path_name; rewrite E; intros []|]. apply W. apply name_in. congruence.
Qed.
Lemma stem_no_slash p : wf_path p -> ~ In 47%N (path_stem p).
Proof. intros W I. apply (name_no_slash p W). rewrite <- (split_name_app (path_name p)). apply in_or_app. now left. Qed.
Lemma suffix_no_slash p : wf_path p -> ~ In 47%N (path_suffix p).
Proof. intros W I. apply (name_no_slash p W). rewrite <- (split_name_app (path_name p)). apply in_or_app. now right. Qed.
Lemma new_name_no_slash p f a e : wf_path p -> no_slash f -> no_slash a -> no_slash e -> ~ In 47%N (new_name p f a e).
Proof.
  intros W Hf Ha He I. unfold new_name in I. apply in_app_or in I as [I|I]; [|apply in_app_or in I as [I|I]].
  - destruct f as [f|]; [exact (Hf _ eq_refl I)|exact (stem_no_slash _ W I)].
  - destruct a as [a|]; [exact (Ha _ eq_refl I)|contradiction].
  - assert (X : ~ In 47%N (match e with None => path_suffix p | Some e => e end)).
    { destruct e as [e|]; [exact (He _ eq_refl)|exact (suffix_no_slash _ W)]. }
    cbv zeta in I. destruct (startswith _ (lit ".")); auto. cbn in I. destruct I as [I|I]; [discriminate|auto].
Qed.
Lemma new_name_nonnil p f a e : new_name p f a e <> nil.
Proof.
  unfold new_name. cbv zeta. destruct (dotted_cases (match e with None => path_suffix p | Some e => e end)) as [x ->].
  intros C. apply app_eq_nil in C as [_ C]. now apply app_eq_nil in C as [_ C].
Qed.
Lemma rename_path p f a e : wf_path p -> no_slash f -> no_slash a -> no_slash e -> new_name p f a e <> lit "." ->
  rename p f a e = mkpath (absolute p) (removelast (parts p) ++ [new_name p f a e]).
Proof.
  intros W Hf Ha He N. rewrite rename_new, of_str_name; auto; [apply new_name_nonnil|apply new_name_no_slash; auto].
Qed.
Lemma long_name (s a : str) x : s <> nil -> s ++ a ++ 46%N :: x <> lit ".".
Proof.
  intros H E. destruct s as [|c s]; [congruence|]. cbn in E. injection E as _ E. apply app_eq_nil in E as [_ E]. now apply app_eq_nil in E as [_ E].
Qed.
Lemma new_name_dot p a e : path_stem p <> nil -> new_name p None a e <> lit ".".
Proof. intros H. unfold new_name. cbv zeta. destruct (dotted_cases (match e with None => path_suffix p | Some e => e end)) as [x ->]. now apply long_name. Qed.
Lemma path_stem_nonnil p : wf_path p -> parts p <> nil -> path_stem p <> nil.
Proof. intros W H. apply stem_nonnil. apply (W (path_name p)). now apply name_in. Qed.

(** Renaming is injective *)
Lemma rename_inj p q a e : wf_path p -> wf_path q -> parts p <> nil -> parts q <> nil -> no_slash a -> no_slash e ->
  (e = None \/ path_suffix p = path_suffix q) -> rename p None a e = rename q None a e -> p = q.
Proof.
  intros Wp Wq Np Nq Ha He S H.
  assert (Hn : no_slash None) by (intros x E; discriminate).
  rewrite !rename_path in H; auto; try (apply new_name_dot; now apply path_stem_nonnil).
  injection H as A P. apply app_inj_tail in P. destruct P as [P N].
  assert (X : path_stem p = path_stem q /\ path_suffix p = path_suffix q).
  { unfold new_name in N. cbv zeta in N. rewrite !app_assoc in N. destruct S as [->|S].
    - unfold path_suffix in N |- *. set (np := path_name p) in *. set (nq := path_name q) in *.
      assert (D : forall n, exists v, (if startswith (snd (split_name n)) (lit ".") then snd (split_name n) else lit "." ++ snd (split_name n)) = 46%N :: v
                 /\ ~ In 46%N v /\ (v = nil -> snd (split_name n) = nil) /\ (v <> nil -> snd (split_name n) = 46%N :: v)).
      { intros n. destruct (split_name_cases n) as [E|[(x & E & Hx & Hd) _]]; rewrite E.
        - exists nil. cbn. split; auto. split; auto. split; auto. congruence.
        - exists x. rewrite (proj2 (startswith_iff (46%N :: x) (lit "."))) by (exists x; reflexivity). split; [reflexivity|]. split; auto. split; auto. congruence. }
      destruct (D np) as (v1 & E1 & H1 & Z1 & O1). destruct (D nq) as (v2 & E2 & H2 & Z2 & O2). rewrite E1, E2 in N.
      destruct (last_dot_inj _ _ _ _ N H1 H2) as [Es Ev]. split; [apply app_inv_tail in Es; auto|]. subst v2.
      destruct v1 as [|c v1]; [rewrite Z1, Z2; auto|rewrite O1, O2; auto; discriminate].
    - split; auto. rewrite S in N. destruct e as [e|]; apply app_inv_tail in N; apply app_inv_tail in N; auto. }
  destruct X as [X1 X2]. destruct p as [ap pp], q as [aq pq]. cbn [absolute parts] in *. subst aq. f_equal.
  rewrite (app_removelast_last nil Np), (app_removelast_last nil Nq), P. f_equal. f_equal.
  pose proof (split_name_app (last pp nil)) as E1. pose proof (split_name_app (last pq nil)) as E2.
  unfold path_stem, path_suffix, path_name in X1, X2. cbn [parts] in X1, X2. rewrite X1, X2 in E1. congruence.
Qed.

(** Locations *)
Lemma split_c_app_any (c : N) a b : split_c c (a ++ c :: b) = split_c c a ++ split_c c b.
Proof.
  induction a as [|d a IH]; cbn [split_c app]; [now rewrite eqb_refl|].
  destruct (eqb_spec c d) as [E|E]; [now rewrite IH|]. rewrite IH. destruct (split_c c a) as [|w l] eqn:S; [now apply split_c_nonnil in S|reflexivity].
Qed.
Lemma fold_go_filter l dir : fold_left go l dir = fold_left norm_step (filter real_part l) dir.
Proof.
  revert dir. induction l as [|x l IH]; intros dir; auto. cbn [fold_left filter]. rewrite IH. unfold go at 1, real_part at 2.
  destruct (eqb x nil) eqn:E1; cbn [negb andb orb]; auto. destruct (eqb x (lit ".")) eqn:E2; cbn [negb andb orb fold_left]; auto.
Qed.
Lemma filter_real_wf l : (forall x, In x l -> x <> nil /\ x <> lit "." /\ ~ In 47%N x) -> filter real_part l = l.
Proof.
  induction l as [|x l IH]; intros H; auto. cbn. destruct (H x (or_introl eq_refl)) as (H1 & H2 & _). unfold real_part at 1.
  rewrite (proj2 (eqb_neq x nil) H1), (proj2 (eqb_neq x (lit ".")) H2). cbn. f_equal. apply IH. intros; apply H; now right.
Qed.
Lemma follow_join dir l : (forall x, In x l -> x <> nil /\ x <> lit "." /\ ~ In 47%N x) -> follow dir (join (lit "/") l) = fold_left norm_step l dir.
Proof.
  intros H. unfold follow. rewrite fold_go_filter. destruct l as [|x l]; [reflexivity|].
  change (lit "/") with [47%N]. rewrite split_c_join; [|discriminate|intros w Hw; apply (H _ Hw)]. now rewrite filter_real_wf.
Qed.
Lemma norm_cwd cwd acc : ~ In (lit "..") cwd -> fold_left norm_step cwd acc = acc ++ cwd.
Proof.
  revert acc. induction cwd as [|x l IH]; intros acc H; cbn; [now rewrite app_nil_r|]. unfold norm_step at 2.
  rewrite (proj2 (eqb_neq x (lit ".."))) by (intros E; apply H; now left). rewrite IH by (intros C; apply H; now right). now rewrite <- app_assoc.
Qed.
Lemma location_abs cwd p : wf_path p -> ~ In (lit "..") cwd -> location cwd p = abs_parts cwd p.
Proof.
  intros W C. unfold location, abs_parts, path_str. destruct (absolute p).
  - assert (E : follow nil (lit "/" ++ join (lit "/") (parts p)) = follow nil (join (lit "/") (parts p))).
    { unfold follow. change (lit "/" ++ join (lit "/") (parts p)) with (47%N :: join (lit "/") (parts p)). cbn [split_c]. rewrite eqb_refl. reflexivity. }
    rewrite E. now apply follow_join.
  - rewrite fold_left_app, (norm_cwd cwd nil C). cbn [app]. destruct (parts p) as [|x l] eqn:E.
    + reflexivity.
    + rewrite <- E in *. apply follow_join. exact W.
Qed.
Lemma norm_names l acc : (forall x, In x acc -> x <> lit "..") -> forall x, In x (fold_left norm_step l acc) -> x <> lit ".." /\ (In x acc \/ In x l).
Proof.
  revert acc. induction l as [|y l IH]; intros acc H x Hx; cbn in Hx; [auto|].
  assert (X : forall z, In z (norm_step acc y) -> z <> lit ".." /\ (In z acc \/ z = y)).
  { intros z Hz. unfold norm_step in Hz. destruct (eqb_spec y (lit "..")) as [E|E].
    - assert (In z acc). { destruct acc as [|a acc']; [contradiction|]. rewrite (app_removelast_last nil (l := a :: acc')) by discriminate. apply in_or_app. now left. }
      auto.
    - apply in_app_or in Hz as [Hz|[<-|[]]]; auto. }
  apply IH in Hx; [|intros; now apply X]. destruct Hx as [H1 [H2|H2]]; split; auto; [|now right; right].
  destruct (X _ H2) as [_ [H3| ->]]; auto. right. now left.
Qed.
Lemma common_firstn a b : firstn (common a b) a = firstn (common a b) b.
Proof. revert b. induction a as [|x a IH]; intros [|y b]; auto. cbn. destruct (eqb_spec x y) as [->|]; auto. cbn. now rewrite IH. Qed.
Lemma common_le a b : common a b <= length a.
Proof. revert b. induction a as [|x a IH]; intros [|y b]; cbn; try lia. destruct (eqb x y); [|lia]. specialize (IH b). lia. Qed.
Lemma fold_up n l : n <= length l -> fold_left norm_step (repeat (lit "..") n) l = firstn (length l - n) l.
Proof.
  revert l. induction n as [|n IH]; intros l H; cbn [repeat fold_left]; [now rewrite Nat.sub_0_r, firstn_all|].
  unfold norm_step at 2. rewrite eqb_refl.
  assert (L : length (removelast l) = length l - 1). { rewrite removelast_firstn_len, firstn_length. lia. }
  rewrite IH by lia. rewrite removelast_firstn_len, firstn_firstn, firstn_length. f_equal. lia.
Qed.

Lemma dbl_slash_cons p c d s : dbl_slash p (c :: d :: s) =
  if N.eqb c 47 && N.eqb d 47 && negb (match p with Some x => N.eqb x 58 | None => false end) then 47%N :: dbl_slash (Some 47%N) s else c :: dbl_slash (Some c) (d :: s).
Proof. reflexivity. Qed.
Lemma dbl_slash_id p s : (forall a b, s <> a ++ 47%N :: 47%N :: b) -> dbl_slash p s = s.
Proof.
  revert p. induction s as [|c s IH]; intros p H; auto. destruct s as [|d s]; auto. rewrite dbl_slash_cons.
  assert (X : N.eqb c 47 && N.eqb d 47 = false).
  { destruct (N.eqb c 47) eqn:E1; auto. destruct (N.eqb d 47) eqn:E2; auto. apply N.eqb_eq in E1, E2. subst. exfalso. now apply (H nil s). }
  rewrite X. cbn [andb]. f_equal. apply IH. intros a b E. apply (H (c :: a) b). cbn. now rewrite E.
Qed.
Lemma join_no_dbl l : (forall x, In x l -> x <> nil /\ ~ In 47%N x) -> forall a b, join (lit "/") l <> a ++ 47%N :: 47%N :: b.
Proof.
  intros H a b E. destruct l as [|x l]; [destruct a; discriminate|].
  assert (S : split_c 47%N (join (lit "/") (x :: l)) = x :: l).
  { apply (split_c_join 47%N); [discriminate|intros w Hw; apply (H _ Hw)]. }
  rewrite E, split_c_app_any in S. cbn [split_c] in S. rewrite eqb_refl in S. 
  assert (I : In nil (x :: l)). { rewrite <- S. apply in_or_app. right. now left. }
  destruct (H _ I) as [X _]. now apply X.
Qed.
Lemma join_last l : (forall x, In x l -> x <> nil /\ ~ In 47%N x) -> rstrip_p (N.eqb 47) (join (lit "/") l) = join (lit "/") l.
Proof.
  intros H. destruct l as [|x l]; auto.
  destruct (rstrip_p_decomp (N.eqb 47) (join (lit "/") (x :: l))) as (q & E & F & L).
  destruct q as [|c q _] using rev_ind; [now rewrite app_nil_r in E|].
  rewrite forallb_app in F. apply andb_true_iff in F. destruct F as [_ F]. cbn [forallb] in F. rewrite andb_true_r in F. apply N.eqb_eq in F. subst c.
  exfalso. rewrite app_assoc in E.
  assert (S : split_c 47%N (join (lit "/") (x :: l)) = x :: l).
  { apply (split_c_join 47%N); [discriminate|intros w Hw; apply (H _ Hw)]. }
  rewrite E, split_c_app_any in S. cbn [split_c] in S.
  assert (I : In nil (x :: l)). { rewrite <- S. apply in_or_app. right. now left. }
  destruct (H _ I) as [X _]. now apply X.
Qed.
