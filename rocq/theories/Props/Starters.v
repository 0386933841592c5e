(** C71: the copies of project starters *)
From Coq Require Import List Bool Arith NArith Permutation Sorted Lia.
From Verif.Base Require Import Str StrFacts Dict DictFacts Result Sort SortFacts PyText.
From Verif.Model Require Import StrToDict Starters.
From Verif.Spec Require Import Starters.
Import ListNotations.

Lemma below_iff q p r : below q p = Some r <-> p = q ++ r /\ r <> nil.
Proof.
  revert p. induction q as [|x q IH]; intros p; cbn [below app].
  - destruct p as [|y p].
    + split; [discriminate|]. intros [<- N]. now contradiction N.
    + split; [intros [= <-]; split; [reflexivity | discriminate] | intros [-> _]; reflexivity].
  - destruct p as [|y p]; [split; [discriminate | intros [E _]; discriminate E]|].
    destruct (eqb_spec x y) as [->|N].
    + rewrite IH. split; intros [E H]; split; try exact H; [now rewrite E | now injection E].
    + split; [discriminate|]. intros [E _]. injection E as E _. now contradiction N.
Qed.
Lemma glob_iff f q r : In r (glob f q) <-> r <> nil /\ In (q ++ r) (keys f).
Proof.
  unfold glob. rewrite in_flat_map. split.
  - intros ((p & e) & I & H). cbn [fst] in H. destruct (below q p) as [r'|] eqn:B; [|destruct H].
    destruct H as [->|[]]. apply below_iff in B as [-> N]. split; [exact N|]. apply in_map_iff. now exists (q ++ r, e).
  - intros [N I]. apply in_map_iff in I as ((p & e) & E & I). cbn [fst] in E. subst p. exists (q ++ r, e). split; [exact I|].
    cbn [fst]. replace (below q (q ++ r)) with (Some r); [now left|]. symmetry. now apply below_iff.
Qed.
Lemma look_ne f p : p <> nil -> look f p = lookup p f.
Proof. now destruct p. Qed.
Lemma look_set (p : fpath) e f (q : fpath) : p <> nil -> look (set p e f) q = if eqb q p then Some e else look f q.
Proof.
  intro N. destruct (eqb_spec q p) as [->|M].
  - rewrite look_ne by exact N. apply lookup_set_eq.
  - destruct q as [|x q]; [reflexivity|]. cbn [look]. now apply lookup_set_neq.
Qed.
Lemma files_iff f dir r : In r (starter_filepaths f dir) <-> exists s, starter_file f dir r s.
Proof.
  unfold starter_filepaths. rewrite filter_In, glob_iff, andb_true_iff, negb_true_iff. unfold is_file, starter_file. split.
  - intros ((N & _) & D & F). destruct (look f (dir ++ r)) as [[|s]|] eqn:L; [discriminate F| |discriminate F].
    exists s. split; [exact N|]. split; [|reflexivity]. intro E. rewrite E in D. discriminate D.
  - intros (s & N & D & L). split; [split; [exact N|]|split].
    + rewrite look_ne in L by (intro E; apply app_eq_nil in E as [_ E]; now apply N). apply lookup_In in L. apply in_map_iff. now exists (dir ++ r, File s).
    + now apply eqb_neq.
    + now rewrite L.
Qed.

Lemma last_snoc {A} (l : list A) : l <> nil -> exists h x, l = h ++ [x].
Proof. intro N. destruct (exists_last N) as (h & x & E). now exists h, x. Qed.
(** A new entry in a directory, at a place without one or with a file *)
Lemma tree_set f (p : fpath) e : tree f -> p <> nil -> look f (removelast p) = Some Dir -> look f p <> Some Dir -> tree (set p e f).
Proof.
  intros [W T] N P D. split; [now apply wf_set|]. intros q e' L. destruct (eqb_spec q p) as [->|M].
  - split; [exact N|]. rewrite look_set by exact N. destruct (eqb_spec (removelast p) p) as [E|_]; [|exact P].
    rewrite E in P. now rewrite P in D.
  - rewrite lookup_set_neq in L by exact M. apply T in L as [Nq L]. split; [exact Nq|].
    rewrite look_set by exact N. destruct (eqb_spec (removelast q) p) as [E|_]; [|exact L]. rewrite E in L. contradiction.
Qed.
Lemma mkdirs_spec f r g : tree f -> mkdirs f r = Ok g ->
  tree g /\ look g (rev r) = Some Dir /\
  forall q, look g q = look f q \/ (look f q = None /\ look g q = Some Dir /\ exists t, rev r = q ++ t).
Proof.
  revert g. induction r as [|x r IH]; cbn [mkdirs]; intros g T H.
  - injection H as <-. split; [exact T|]. split; [reflexivity|]. intro q. now left.
  - destruct (look f (rev (x :: r))) as [[|s]|] eqn:L; [|discriminate H|].
    + injection H as <-. split; [exact T|]. split; [exact L|]. intro q. now left.
    + destruct (mkdirs f r) as [g'|] eqn:E; [|discriminate H]. cbn [bind] in H. apply (f_equal (fun o => match o with Ok y => y | Raise _ => f end)) in H. subst g.
      destruct (IH g' T eq_refl) as (T' & D & S).
      assert (N : rev (x :: r) <> nil) by (cbn [rev]; intro Z; apply app_eq_nil in Z as [_ Z]; discriminate Z).
      assert (L' : look g' (rev (x :: r)) = None).
      { destruct (S (rev (x :: r))) as [Z|(_ & _ & t & Z)]; [now rewrite Z|]. exfalso. cbn [rev] in Z.
        apply (f_equal (@length _)) in Z. rewrite !app_length in Z. cbn [length] in Z. lia. }
      split; [|split].
      * apply tree_set; [exact T' | exact N | cbn [rev]; rewrite removelast_last; exact D | intro Z; rewrite L' in Z; discriminate Z].
      * rewrite look_set by exact N. now rewrite eqb_refl.
      * intro q. rewrite look_set by exact N. destruct (eqb_spec q (rev (x :: r))) as [->|M].
        { right. split; [exact L|]. split; [reflexivity|]. exists nil. now rewrite app_nil_r. }
        destruct (S q) as [Z|(Z1 & Z2 & t & Z3)]; [now left | right]. split; [exact Z1|]. split; [exact Z2|].
        exists (t ++ [x]). cbn [rev]. rewrite Z3. now rewrite app_assoc.
Qed.
Lemma mkdirs_ok f r : (forall q t s, rev r = q ++ t -> look f q <> Some (File s)) -> exists g, mkdirs f r = Ok g.
Proof.
  induction r as [|x r IH]; cbn [mkdirs]; intro H; [now exists f|].
  destruct (look f (rev (x :: r))) as [[|s]|] eqn:L; [now exists f| |].
  - exfalso. apply (H (rev (x :: r)) nil s); [now rewrite app_nil_r | exact L].
  - destruct IH as [g E].
    + intros q t s E. apply (H q (t ++ [x]) s). cbn [rev]. rewrite E. now rewrite app_assoc.
    + rewrite E. cbn [bind]. now exists (set (rev (x :: r)) Dir g).
Qed.
Lemma copy2_ok f src dst s : look f dst <> Some Dir -> src <> dst -> look f src = Some (File s) ->
  look f (removelast dst) = Some Dir -> copy2 f src dst = Ok (set dst (File s) f).
Proof.
  intros D N S P. unfold copy2. cbv zeta.
  assert (E : (match look f dst with Some Dir => dst ++ [last src nil] | _ => dst end) = dst).
  { destruct (look f dst) as [[|x]|]; [now contradiction D | reflexivity | reflexivity]. }
  rewrite E. rewrite (proj2 (eqb_neq src dst) N), S, P. destruct (look f dst) as [[|x]|]; [now contradiction D | reflexivity | reflexivity].
Qed.
(** Directories above an entry *)
Lemma tree_above f p e q t : tree f -> look f p = Some e -> p = q ++ t -> t <> nil -> look f q = Some Dir.
Proof.
  intros [_ T]. revert p e. induction t as [|x t IH] using rev_ind; intros p e L E N; [now contradiction N|].
  assert (Np : p <> nil) by (intro Z; rewrite Z in E; symmetry in E; apply app_eq_nil in E as [_ E]; now apply N).
  rewrite look_ne in L by exact Np. apply T in L as [_ L]. rewrite E, app_assoc, removelast_last in L.
  destruct t as [|y t]; [now rewrite app_nil_r in L|]. now apply (IH (q ++ y :: t) Dir).
Qed.

Section Copy.
Variables (f0 : fs) (dir out : fpath).
Hypothesis T0 : tree f0.
Hypothesis C0 : clear f0 dir out.

Lemma not_above r s : starter_file f0 dir r s -> ~ above f0 dir out (out ++ r).
Proof.
  intros (N & _ & L) (r' & s' & t & (N' & _ & L') & Nt & E). rewrite <- app_assoc in E. apply app_inv_head in E. subst r'.
  rewrite app_assoc in L'. pose proof (tree_above _ _ _ _ _ T0 L' eq_refl Nt) as D. rewrite D in L. discriminate L.
Qed.
(** While files are copied: [l] are those that are still to be copied *)
Definition sofar (l : list fpath) (f : fs) : Prop :=
  tree f /\ forall q,
    (exists r s, q = out ++ r /\ starter_file f0 dir r s /\ ~ In r l /\ look f q = Some (File s)) \/
    ((forall r s, q = out ++ r -> starter_file f0 dir r s -> In r l) /\
     (look f q = look f0 q \/ (look f0 q = None /\ look f q = Some Dir /\ above f0 dir out q))).
Lemma sofar_src l f q : sofar l f -> (exists r s, starter_file f0 dir r s) -> look f (dir ++ q) = look f0 (dir ++ q).
Proof.
  intros [_ S] _. destruct (S (dir ++ q)) as [(r & s & E & F & _)|[_ [E|(_ & _ & r & s & t & F & _ & E)]]].
  - exfalso. apply (C0 _ _ F) with q. now symmetry.
  - exact E.
  - exfalso. apply (C0 _ _ F) with (q ++ t). now rewrite E, app_assoc.
Qed.
Lemma step l r s f g : sofar (r :: l) f -> ~ In r l -> starter_file f0 dir r s -> mkdirs f (rev (removelast (out ++ r))) = Ok g ->
  sofar (r :: l) g /\ exists h, copy2 g (dir ++ r) (out ++ r) = Ok h /\ sofar l h.
Proof.
  intros S NI F M. pose proof F as (N & _ & L). destruct (last_snoc r N) as (r0 & x & Er).
  assert (Ne : out ++ r <> nil) by (intro Z; apply app_eq_nil in Z as [_ Z]; now apply N).
  assert (Erl : removelast (out ++ r) = out ++ r0) by (rewrite Er, app_assoc; apply removelast_last).
  destruct S as [T S]. destruct (mkdirs_spec _ _ _ T M) as (Tg & Dg & Sg). rewrite rev_involutive in Dg, Sg.
  assert (G : sofar (r :: l) g).
  { split; [exact Tg|]. intro q. destruct (S q) as [(r' & s' & E & F' & I & Lq)|[A B]].
    - left. exists r', s'. repeat split; try assumption; try apply F'. destruct (Sg q) as [Z|(Z & _)]; [now rewrite Z | rewrite Lq in Z; discriminate Z].
    - right. split; [exact A|]. destruct (Sg q) as [Z|(Z1 & Z2 & t & Z3)]; [rewrite Z; exact B|]. right.
      destruct B as [B|(_ & B & _)]; [|rewrite Z1 in B; discriminate B]. split; [now rewrite <- B|]. split; [exact Z2|].
      exists r, s, (t ++ [x]). split; [exact F|]. split; [now destruct t|]. rewrite Erl in Z3. rewrite Er, app_assoc, Z3. now rewrite app_assoc. }
  split; [exact G|].
  assert (Src : look g (dir ++ r) = Some (File s)) by (rewrite (sofar_src _ _ _ G); [exact L | now exists r, s]).
  assert (Dst : look g (out ++ r) <> Some Dir).
  { destruct G as [_ G]. destruct (G (out ++ r)) as [(r' & s' & E & _ & _ & Z)|[_ [Z|(_ & _ & Z)]]].
    - rewrite Z. discriminate.
    - rewrite Z. now apply (C0 r s F).
    - exact (False_ind _ (not_above r s F Z)). }
  exists (set (out ++ r) (File s) g). split.
  - apply copy2_ok; [exact Dst | | exact Src | exact Dg]. intro E. apply (C0 r s F) with r. now symmetry.
  - split; [now apply tree_set|]. intro q. rewrite look_set by exact Ne. destruct (eqb_spec q (out ++ r)) as [->|Nq].
    + left. exists r, s. repeat split; try assumption; apply F.
    + destruct G as [_ G]. destruct (G q) as [(r' & s' & E & F' & I & Lq)|[A B]].
      * left. exists r', s'. repeat split; try assumption; try apply F'. intro Z. apply I. now right.
      * right. split; [|exact B]. intros r' s' E F'. destruct (A r' s' E F') as [<-|Z]; [now contradiction Nq | exact Z].
Qed.
Lemma copy_files_spec l : forall f, sofar l f -> NoDup l -> (forall r, In r l -> exists s, starter_file f0 dir r s) ->
  forall g e, copy_files f dir out l = (g, e) -> (exists l', incl l' l /\ sofar l' g) /\ (e = None -> sofar nil g).
Proof.
  induction l as [|r l IH]; cbn [copy_files]; intros f S ND Fs g e H.
  - injection H as <- <-. split; [exists nil; split; [now intros x | exact S] | intros _; exact S].
  - inversion ND as [|? ? NI ND']; subst. destruct (Fs r (or_introl eq_refl)) as [s F].
    destruct (mkdirs f (rev (removelast (out ++ r)))) as [h|x] eqn:M.
    + destruct (step _ _ _ _ _ S NI F M) as (Sh & k & C & Sk). rewrite C in H.
      destruct (IH k Sk ND' (fun r I => Fs r (or_intror I)) g e H) as [(l' & I & Sg) D].
      split; [|exact D]. exists l'. split; [|exact Sg]. intros y Y. right. now apply I.
    + injection H as <- <-. split; [|discriminate]. exists (r :: l). split; [apply incl_refl | exact S].
Qed.
Lemma copy_files_ok l : forall f, sofar l f -> NoDup l -> (forall r, In r l -> exists s, starter_file f0 dir r s) ->
  (forall q s, above f0 dir out q -> look f0 q <> Some (File s)) -> exists g, copy_files f dir out l = (g, None).
Proof.
  induction l as [|r l IH]; cbn [copy_files]; intros f S ND Fs A; [now exists f|].
  inversion ND as [|? ? NI ND']; subst. destruct (Fs r (or_introl eq_refl)) as [s F]. pose proof F as (N & _).
  destruct (last_snoc r N) as (r0 & x & Er).
  assert (Erl : removelast (out ++ r) = out ++ r0) by (rewrite Er, app_assoc; apply removelast_last).
  destruct (mkdirs_ok f (rev (removelast (out ++ r)))) as [h M].
  { intros q t s' E Lq. rewrite rev_involutive, Erl in E.
    assert (Aq : above f0 dir out q).
    { exists r, s, (t ++ [x]). split; [exact F|]. split; [now destruct t|]. rewrite Er, app_assoc, E. now rewrite app_assoc. }
    destruct S as [_ S]. destruct (S q) as [(r' & s2 & -> & F' & _)|[_ [B|(_ & B & _)]]].
    - exact (not_above r' s2 F' Aq).
    - rewrite B in Lq. now apply A in Lq.
    - rewrite B in Lq. discriminate Lq. }
  rewrite M. destruct (step _ _ _ _ _ S NI F M) as (_ & k & C & Sk). rewrite C.
  apply IH; [exact Sk | exact ND' | intros r' I; apply Fs; now right | exact A].
Qed.
Lemma start l : (forall r s, starter_file f0 dir r s -> In r l) -> sofar l f0.
Proof. intro H. split; [exact T0|]. intro q. right. split; [intros r s _ F; now apply (H r s) | now left]. Qed.
End Copy.

(** ** The dictionary of starters *)
Lemma name_desc r : starter_path_to_name (r ++ [desc_filename]) =
  join (lit "/") (filter (fun x => negb (eqb x (lit "starters")) && negb (eqb x (lit "description.yaml"))) r).
Proof. unfold starter_path_to_name. rewrite filter_app. cbn [filter]. change (eqb desc_filename desc_filename) with true. rewrite andb_false_r, app_nil_r. reflexivity. Qed.
Definition descs (f : fs) (tpl : fpath) : list fpath := filter (fun r => eqb (last r nil) desc_filename) (glob f tpl).
Lemma descs_iff f tpl r : In r (descs f tpl) <-> exists q, r = q ++ [desc_filename] /\ In (tpl ++ r) (keys f).
Proof.
  unfold descs. rewrite filter_In, glob_iff. split.
  - intros ((N & I) & E). destruct (last_snoc r N) as (q & x & ->). rewrite last_last in E. apply eqb_eq in E. subst x. now exists q.
  - intros (q & -> & I). rewrite last_last, eqb_refl. split; [|reflexivity]. split; [|exact I]. intro Z. apply app_eq_nil in Z as [_ Z]. discriminate Z.
Qed.
Lemma read_inv f tpl r n s : read_starter f tpl r = Ok (n, s) ->
  n = starter_path_to_name r /\ root s = tpl ++ removelast r /\ exists x, look f (tpl ++ r) = Some (File x).
Proof.
  unfold read_starter. destruct (look f (tpl ++ r)) as [[|x]|]; [discriminate| |discriminate]. cbv zeta.
  destruct (starter_path_template_name r) as [t|]; [|discriminate]. cbn [bind].
  destruct (lookup (lit "description") _) as [y|]; [|discriminate]. intros [= <- <-]. split; [reflexivity|]. split; [reflexivity|]. now exists x.
Qed.
Definition gen (f : fs) (tpl : fpath) (l : list fpath) (acc : result (dict str starter)) : result (dict str starter) :=
  fold_left (fun acc r => do d <- acc ; do e <- read_starter f tpl r ; Ok (set (fst e) (snd e) d)) l acc.
Lemma gen_raise f tpl l e : gen f tpl l (Raise e) = Raise e.
Proof. induction l as [|r l IH]; [reflexivity|]. exact IH. Qed.
Lemma gen_inv f tpl l : forall d0 d, gen f tpl l (Ok d0) = Ok d ->
  (forall n s, lookup n d = Some s -> lookup n d0 = Some s \/ exists r, In r l /\ read_starter f tpl r = Ok (n, s)) /\
  (forall n, lookup n d0 <> None -> lookup n d <> None) /\
  (forall r, In r l -> exists s, read_starter f tpl r = Ok (starter_path_to_name r, s) /\ lookup (starter_path_to_name r) d <> None).
Proof.
  induction l as [|r l IH]; intros d0 d H.
  - injection H as <-. split; [now left|]. split; [trivial | intros r []].
  - unfold gen in H. cbn [fold_left bind] in H. destruct (read_starter f tpl r) as [[n s]|x] eqn:R; cbn [bind fst snd] in H.
    2: { fold (gen f tpl l (Raise x)) in H. rewrite gen_raise in H. discriminate H. }
    fold (gen f tpl l (Ok (set n s d0))) in H. apply IH in H as (A & B & C).
    pose proof (read_inv _ _ _ _ _ R) as (En & _). split; [|split].
    + intros m t L. destruct (A m t L) as [L'|(r' & I & R')]; [|right; exists r'; split; [now right | exact R']].
      rewrite lookup_set in L'. destruct (eqb_spec m n) as [->|_]; [|now left]. injection L' as <-. right. exists r. split; [now left | exact R].
    + intros m L. apply B. rewrite lookup_set. now destruct (eqb m n).
    + intros r' [<-|I]; [|now apply C]. exists s. rewrite <- En. split; [exact R|]. apply B. rewrite lookup_set, eqb_refl. discriminate.
Qed.
Lemma dict_found f tpl d n s : generate_starters_dict f tpl = Ok d -> lookup n d = Some s -> starter_at f tpl n (root s).
Proof.
  intros H L. change (gen f tpl (descs f tpl) (Ok nil) = Ok d) in H. apply gen_inv in H as (A & _ & _).
  apply A in L as [L|(r & I & R)]; [discriminate L|]. apply descs_iff in I as (q & -> & _).
  apply read_inv in R as (-> & -> & x & L). exists q, x. rewrite removelast_last, name_desc. now split; [|split].
Qed.
Lemma dict_has f tpl d n dir : generate_starters_dict f tpl = Ok d -> starter_at f tpl n dir -> exists s, lookup n d = Some s.
Proof.
  intros H (r & x & -> & L & ->). change (gen f tpl (descs f tpl) (Ok nil) = Ok d) in H. apply gen_inv in H as (_ & _ & C).
  destruct (C (r ++ [desc_filename])) as (s & _ & N).
  - apply descs_iff. exists r. split; [reflexivity|]. rewrite look_ne in L by (now destruct tpl, r). apply lookup_In in L. apply in_map_iff.
    eexists. split; [|exact L]. reflexivity.
  - rewrite name_desc in N. destruct (lookup _ d) as [t|]; [now exists t | now contradiction N].
Qed.
Lemma index_some x l : In x l -> exists n, index_of x l = Some n.
Proof.
  induction l as [|y l IH]; [intros [] | intros [->|I]; cbn [index_of]].
  - rewrite eqb_refl. now exists 0.
  - destruct (eqb y x); [now exists 0|]. destruct (IH I) as [n ->]. now exists (S n).
Qed.
Lemma dict_ok f tpl : described f tpl -> exists d, generate_starters_dict f tpl = Ok d.
Proof.
  intro D. change (exists d, gen f tpl (descs f tpl) (Ok nil) = Ok d).
  assert (R : forall r, In r (descs f tpl) -> exists e, read_starter f tpl r = Ok e).
  { intros r I. apply descs_iff in I as (q & -> & I). apply keys_lookup in I as [e L].
    destruct (D q e) as (S & s & -> & K); [rewrite look_ne by (now destruct tpl, q); exact L|].
    unfold read_starter. rewrite look_ne by (now destruct tpl, q). rewrite L. cbv zeta. unfold starter_path_template_name.
    destruct (index_some starters_dir (q ++ [desc_filename])) as [n ->]; [apply in_or_app; now left|]. cbn [bind].
    rewrite lookup_set. change (eqb (lit "description") (lit "template")) with false. cbv iota.
    destruct (lookup (lit "description") (str_to_dict true s)) as [y|]; [|now contradiction K]. eexists. reflexivity. }
  generalize (@nil (str * starter)). induction (descs f tpl) as [|r l IH]; intro d0; [now exists d0|].
  destruct (R r (or_introl eq_refl)) as [e E]. unfold gen. cbn [fold_left bind]. rewrite E. cbn [bind]. apply IH. intros r' I. apply R. now right.
Qed.
Lemma glob_nodup f q : wf f -> NoDup (glob f q).
Proof.
  unfold wf. intro W. induction f as [|(p & e) f IH]; cbn [glob flat_map]; [constructor|]. inversion W as [|? ? NI W']; subst.
  fold (glob f q). cbn [fst]. destruct (below q p) as [r|] eqn:B; [|now apply IH]. cbn [app]. constructor; [|now apply IH].
  apply below_iff in B as [-> N]. intro I. apply glob_iff in I as [_ I]. now apply NI.
Qed.
Lemma nodup_filter {A} (P : A -> bool) l : NoDup l -> NoDup (filter P l).
Proof. induction 1 as [|x l NI ND IH]; cbn [filter]; [constructor|]. destruct (P x); [constructor; [rewrite filter_In; tauto | exact IH] | exact IH]. Qed.
Definition sorted_files (f : fs) (dir : fpath) : list fpath := isort filepath_leb (starter_filepaths f dir).
Section Clone.
Variables (f : fs) (dir out : fpath).
Hypothesis T : tree f.
Hypothesis C : clear f dir out.
Lemma l_iff r : In r (sorted_files f dir) <-> exists s, starter_file f dir r s.
Proof.
  rewrite <- files_iff. unfold sorted_files. split; intro I.
  - exact (Permutation_in _ (isort_perm filepath_leb _) I).
  - exact (Permutation_in _ (Permutation_sym (isort_perm filepath_leb _)) I).
Qed.
Lemma l_nodup : NoDup (sorted_files f dir).
Proof. unfold sorted_files. apply (Permutation_NoDup (Permutation_sym (isort_perm filepath_leb _))). apply nodup_filter, glob_nodup, T. Qed.
Lemma l_start : sofar f dir out (sorted_files f dir) f.
Proof. apply start; [exact T|]. intros r s F. apply l_iff. now exists s. Qed.
Lemma clone_spec ni ans g o : clone_starter f dir out ni ans = (g, o) -> g = f /\ o <> Done \/ exists l', sofar f dir out l' g /\ (o = Done -> l' = nil).
Proof.
  unfold clone_starter. destruct (negb ni && negb (is_empty f out) && negb ans); [intros [= <- <-]; left; split; [reflexivity | discriminate]|].
  destruct (starter_filepaths f dir) as [|r0 l0] eqn:E; [intros [= <- <-]; left; split; [reflexivity | discriminate]|].
  rewrite <- E. fold (sorted_files f dir). destruct (copy_files f dir out (sorted_files f dir)) as [h e] eqn:H. intro R.
  destruct (copy_files_spec f dir out T C (sorted_files f dir) f l_start l_nodup (fun r I => proj1 (l_iff r) I) h e H) as [(l' & _ & S) D].
  right. destruct e as [x|]; injection R as <- <-; [exists l'; split; [exact S | discriminate] | exists nil; split; [now apply D | reflexivity]].
Qed.
Lemma sofar_rest l' g : sofar f dir out l' g -> tree g /\ rest f dir out g /\
  forall r s, starter_file f dir r s -> look g (out ++ r) = Some (File s) \/ look g (out ++ r) = look f (out ++ r).
Proof.
  intros [Tg S]. split; [exact Tg|]. split.
  - intros q Q. destruct (S q) as [(r & s & E & F & _)|[_ B]]; [now apply Q in F | exact B].
  - intros r s F. destruct (S (out ++ r)) as [(r' & s' & E & F' & _ & L)|[_ [B|(_ & _ & B)]]].
    + apply app_inv_head in E. subst r'. left. destruct F as (_ & _ & F), F' as (_ & _ & F'). congruence.
    + now right.
    + exact (False_ind _ (not_above f dir out T r s F B)).
Qed.
Lemma sofar_copied g : sofar f dir out nil g -> copied f dir out g.
Proof.
  intros [_ S] r s F. destruct (S (out ++ r)) as [(r' & s' & E & F' & _ & L)|[A _]].
  - apply app_inv_head in E. subst r'. destruct F as (_ & _ & F), F' as (_ & _ & F'). congruence.
  - now destruct (A r s eq_refl F).
Qed.
Lemma clone_ok ni ans : (ni = true \/ ans = true \/ is_empty f out = true) -> (exists r s, starter_file f dir r s) ->
  (forall q s, above f dir out q -> look f q <> Some (File s)) -> exists g, clone_starter f dir out ni ans = (g, Done).
Proof.
  intros Y (r & s & F) A. unfold clone_starter.
  replace (negb ni && negb (is_empty f out) && negb ans) with false by (destruct Y as [E|[E|E]]; rewrite E; [reflexivity | now rewrite andb_false_r | now destruct ni]).
  assert (I : In r (starter_filepaths f dir)) by (apply files_iff; now exists s).
  destruct (starter_filepaths f dir) as [|r0 l0] eqn:E; [destruct I|]. rewrite <- E. fold (sorted_files f dir).
  destruct (copy_files_ok f dir out T C (sorted_files f dir) f l_start l_nodup (fun r I => proj1 (l_iff r) I) A) as [g ->]. now exists g.
Qed.
End Clone.

Lemma starter_filepaths_dec f dir out q : (exists r s, starter_file f dir r s /\ q = out ++ r) \/ (forall r s, starter_file f dir r s -> q <> out ++ r).
Proof.
  destruct (in_dec (list_eq_dec (list_eq_dec N.eq_dec)) q (map (app out) (starter_filepaths f dir))) as [I|N].
  - left. apply in_map_iff in I as (r & <- & I). apply files_iff in I as [s F]. now exists r, s.
  - right. intros r s F ->. apply N. apply in_map_iff. exists r. split; [reflexivity|]. apply files_iff. now exists s.
Qed.

(** ** Theorems *)
(** When the command is done, each file of the starter is in the directory, and the rest is as it was *)
Theorem C71_copied : forall f tpl name names out ni ans g, tree f ->
  init f tpl (name :: names) out false false ni ans = (g, Done) ->
  exists dir, starter_at f tpl name dir /\ (clear f dir out -> tree g /\ copied f dir out g /\ rest f dir out g).
Proof.
  intros f tpl name names out ni ans g T H. unfold init in H. destruct (generate_starters_dict f tpl) as [d|] eqn:D; [|discriminate H].
  destruct (lookup name d) as [s|] eqn:L; [|discriminate H]. exists (root s). split; [exact (dict_found _ _ _ _ _ D L)|]. intro C.
  destruct (clone_spec f (root s) out T C ni ans g Done H) as [[_ N]|(l' & S & E)]; [now contradiction N|]. rewrite (E eq_refl) in S.
  destruct (sofar_rest f (root s) out T _ _ S) as (Tg & R & _). split; [exact Tg|]. split; [|exact R]. now apply sofar_copied.
Qed.
(** Whatever the command ends with, only the places of the files of the starter can have changed, and each of these is
    as it was or as in the starter *)
Theorem C71_only : forall f tpl names out info show_list ni ans g o, tree f ->
  init f tpl names out info show_list ni ans = (g, o) ->
  g = f \/ exists name dir, In name names /\ starter_at f tpl name dir /\
    (clear f dir out -> tree g /\ rest f dir out g /\
       forall r s, starter_file f dir r s -> look g (out ++ r) = Some (File s) \/ look g (out ++ r) = look f (out ++ r)).
Proof.
  intros f tpl names out info show_list ni ans g o T H. unfold init in H.
  destruct (generate_starters_dict f tpl) as [d|x] eqn:D; [|injection H as <- _; now left].
  assert (L : forall g o, match starters_list d with Ok l => (f, Listed l) | Raise e => (f, Failed e) end = (g, o) -> g = f).
  { intros g' o'. destruct (starters_list d); now intros [= <- _]. }
  destruct names as [|name names]; [left; now apply L in H|]. destruct show_list; [left; now apply L in H|]. clear L.
  destruct (lookup name d) as [s|] eqn:L; [|injection H as <- _; now left]. destruct info; [injection H as <- _; now left|].
  right. exists name, (root s). split; [now left|]. split; [exact (dict_found _ _ _ _ _ D L)|]. intro C.
  destruct (clone_spec f (root s) out T C ni ans g o H) as [[-> _]|(l' & S & _)].
  - apply (sofar_rest f (root s) out T (sorted_files f (root s)) f). now apply l_start.
  - now apply (sofar_rest f (root s) out T l' g).
Qed.
(** Nothing is changed by listings, information, names that no starter has, and when the user says no *)
Theorem C71_unchanged : forall f tpl names out info show_list ni ans g o,
  init f tpl names out info show_list ni ans = (g, o) ->
  names = nil \/ show_list = true \/ info = true \/
  (forall name dir, hd_error names = Some name -> ~ starter_at f tpl name dir) \/
  (ni = false /\ ans = false /\ exists x e, lookup (out ++ [x]) f = Some e) -> g = f /\ o <> Done.
Proof.
  intros f tpl names out info show_list ni ans g o H Y. unfold init in H.
  destruct (generate_starters_dict f tpl) as [d|x] eqn:D; [|injection H as <- <-; split; [reflexivity | discriminate]].
  assert (L : forall g o, match starters_list d with Ok l => (f, Listed l) | Raise e => (f, Failed e) end = (g, o) -> g = f /\ o <> Done).
  { intros g' o'. destruct (starters_list d); intros [= <- <-]; split; discriminate || reflexivity. }
  destruct names as [|name names]; [now apply L in H|]. destruct show_list; [now apply L in H|]. clear L.
  destruct (lookup name d) as [s|] eqn:L; [|injection H as <- <-; split; [reflexivity | discriminate]].
  destruct info; [injection H as <- <-; split; [reflexivity | discriminate]|].
  destruct Y as [Y|[Y|[Y|[Y|(-> & -> & x & e & Y)]]]]; try discriminate Y.
  - exfalso. apply (Y name (root s) eq_refl). exact (dict_found _ _ _ _ _ D L).
  - unfold clone_starter in H. assert (E : is_empty f out = false).
    { unfold is_empty. destruct (look f out) as [[|]|]; [|reflexivity|reflexivity].
      assert (I : In [x] (glob f out)) by (apply glob_iff; split; [discriminate|]; apply lookup_In in Y; apply in_map_iff; now exists (out ++ [x], e)).
      destruct (glob f out); [destruct I | reflexivity]. }
    rewrite E in H. injection H as <- <-. split; [reflexivity | discriminate].
Qed.
(** The command is done if the descriptions are as they should be, the name is that of one starter with a file, the user
    agrees if the directory has files, and no file is where a directory is needed *)
Theorem C71_total : forall f tpl name names out ni ans dir, tree f -> described f tpl ->
  starter_at f tpl name dir -> (forall dir', starter_at f tpl name dir' -> dir' = dir) ->
  (exists r s, starter_file f dir r s) -> clear f dir out ->
  (forall q s, above f dir out q -> look f q <> Some (File s)) ->
  (ni = true \/ ans = true \/ (look f out = Some Dir /\ forall r, lookup (out ++ r) f <> None -> r = nil)) ->
  exists g, init f tpl (name :: names) out false false ni ans = (g, Done).
Proof.
  intros f tpl name names out ni ans dir T D S U F C A Y. destruct (dict_ok f tpl D) as [d Ed]. unfold init. rewrite Ed.
  destruct (dict_has _ _ _ _ _ Ed S) as [s L]. rewrite L. rewrite (U _ (dict_found _ _ _ _ _ Ed L)).
  apply clone_ok; try assumption. destruct Y as [Y|[Y|[Y1 Y2]]]; [now left | right; now left | right; right].
  unfold is_empty. rewrite Y1. destruct (glob f out) as [|r l] eqn:G; [reflexivity|].
  assert (I : In r (glob f out)) by (rewrite G; now left). apply glob_iff in I as [N I]. apply keys_lookup in I as [e I].
  exfalso. apply N, Y2. now rewrite I.
Qed.
(** A second copy of the starter changes nothing *)
Theorem C71_again : forall f tpl name names out ni ans ans' dir g, tree f -> described f tpl ->
  starter_at f tpl name dir -> (forall dir', starter_at f tpl name dir' -> dir' = dir) -> clear f dir out ->
  (forall r s q, starter_file f dir r s -> out ++ r <> tpl ++ q) ->
  init f tpl (name :: names) out false false ni ans = (g, Done) ->
  exists h, init g tpl (name :: names) out false false true ans' = (h, Done) /\ forall q, look h q = look g q.
Proof.
  intros f tpl name names out ni ans ans' dir g T D S U C O H.
  destruct (C71_copied _ _ _ _ _ _ _ _ T H) as (dir0 & S0 & R). apply U in S0. subst dir0. destruct (R C) as (Tg & Cg & Rg). clear R.
  assert (F : exists r s, starter_file f dir r s).
  { unfold init in H. destruct (generate_starters_dict f tpl) as [d|] eqn:Ed; [|discriminate H]. destruct (lookup name d) as [s|] eqn:L; [|discriminate H].
    rewrite (U _ (dict_found _ _ _ _ _ Ed L)) in H. unfold clone_starter in H. destruct (negb ni && _ && _); [discriminate H|].
    destruct (starter_filepaths f dir) as [|r l] eqn:E; [discriminate H|]. exists r. apply files_iff. rewrite E. now left. }
  assert (Same : forall q, look g (tpl ++ q) = look f (tpl ++ q)).
  { intro q. destruct (Rg (tpl ++ q)) as [E|(_ & _ & r & s & t & Fr & _ & E)]; [|exact E|].
    - intros r s Fr E. apply (O r s q Fr). now symmetry.
    - exfalso. apply (O r s (q ++ t) Fr). now rewrite E, app_assoc. }
  assert (Hd : exists r, dir = tpl ++ r) by (destruct S as (r & s & -> & _); now exists r). destruct Hd as [rd Hd].
  assert (SF : forall r s, starter_file g dir r s <-> starter_file f dir r s).
  { intros r s. unfold starter_file. rewrite Hd, <- app_assoc, Same. reflexivity. }
  assert (SA : forall n d, starter_at g tpl n d <-> starter_at f tpl n d).
  { intros n d. unfold starter_at. split; intros (r & s & E & L & N); exists r, s; (split; [exact E|]; split; [|exact N]).
    - now rewrite <- Same.
    - now rewrite Same. }
  assert (Up : forall q, above f dir out q -> look g q = Some Dir).
  { intros q (r & s & t & Fr & Nt & E). exact (tree_above g (out ++ r) (File s) q t Tg (Cg r s Fr) E Nt). }
  assert (Ag : forall q, above g dir out q -> above f dir out q).
  { intros q (r & s & t & Fr & X). exists r, s, t. split; [now apply SF | exact X]. }
  assert (Cl : clear g dir out).
  { intros r s Fr. apply SF in Fr. split; [exact (proj1 (C r s Fr))|]. rewrite (Cg r s Fr). discriminate. }
  destruct (C71_total g tpl name names out true ans' dir Tg) as [h Hh].
  - intros r e L. rewrite Same in L. now apply D.
  - now apply SA.
  - intros dir' S'. now apply U, SA.
  - destruct F as (r & s & Fr). exists r, s. now apply SF.
  - exact Cl.
  - intros q s X. apply Ag, Up in X. rewrite X. discriminate.
  - now left.
  - exists h. split; [exact Hh|]. destruct (C71_copied _ _ _ _ _ _ _ _ Tg Hh) as (dir0 & S0 & R). apply SA, U in S0. subst dir0.
    destruct (R Cl) as (_ & Ch & Rh). intro q.
    destruct (starter_filepaths_dec g dir out q) as [(r & s & Fr & ->)|N].
    + rewrite (Ch r s Fr). apply SF in Fr. now rewrite (Cg r s Fr).
    + destruct (Rh q N) as [E|(E & _ & X)]; [exact E|]. apply Ag, Up in X. rewrite X in E. discriminate E.
Qed.
(** The list has each name once, in the order of the names *)
Theorem C71_list : forall f tpl names out info show_list ni ans g l,
  init f tpl names out info show_list ni ans = (g, Listed l) ->
  g = f /\ (names = nil \/ show_list = true) /\ NoDup (map fst l) /\ StronglySorted (fun x y => str_leb x y = true) (map fst l) /\
  forall n, In n (map fst l) <-> exists dir, starter_at f tpl n dir.
Proof.
  intros f tpl names out info show_list ni ans g l H. unfold init in H.
  destruct (generate_starters_dict f tpl) as [d|x] eqn:D; [|discriminate H].
  assert (L : g = f /\ starters_list d = Ok l /\ (names = nil \/ show_list = true)).
  { destruct names as [|name names].
    - destruct (starters_list d); [|discriminate H]. injection H as <- <-. auto.
    - destruct show_list.
      + destruct (starters_list d); [|discriminate H]. injection H as <- <-. auto.
      + destruct (lookup name d); [|discriminate H]. destruct info; [discriminate H|]. unfold clone_starter in H.
        destruct (negb ni && _ && _); [discriminate H|]. destruct (starter_filepaths f _); [discriminate H|].
        destruct (copy_files _ _ _ _) as [h [e|]]; discriminate H. }
  destruct L as (-> & L & Y). split; [reflexivity|]. split; [exact Y|].
  assert (W : wf d).
  { change (gen f tpl (descs f tpl) (Ok nil) = Ok d) in D. revert D. assert (W0 : @wf str starter nil) by constructor. revert W0.
    generalize (@nil (str * starter)). induction (descs f tpl) as [|r q IH]; intros d0 W0 D; [now injection D as <-|].
    unfold gen in D. cbn [fold_left bind] in D. destruct (read_starter f tpl r) as [[n s]|x]; cbn [bind fst snd] in D.
    - apply IH with (2 := D). now apply wf_set.
    - fold (gen f tpl q (Raise x)) in D. rewrite gen_raise in D. discriminate D. }
  assert (E : map fst l = isort str_leb (keys d)).
  { unfold starters_list in L. destruct d as [|e d]; [discriminate L|]. clear H. revert l L.
    induction (isort str_leb (keys (e :: d))) as [|n q IH]; cbn [fold_right]; intros l L; [injection L as <-; reflexivity|].
    destruct (lookup n (e :: d)) as [s|]; [|discriminate L]. destruct (splitlines _) as [|x xs]; [discriminate L|].
    destruct (fold_right _ (Ok nil) q) as [l'|] eqn:R; [|discriminate L]. cbn [bind] in L. injection L as <-. cbn [map fst]. f_equal. now apply IH. }
  rewrite E. split; [|split].
  - exact (Permutation_NoDup (Permutation_sym (isort_perm str_leb (keys d))) W).
  - apply isort_sorted; [apply str_leb_total | apply str_leb_trans].
  - intro n. split.
    + intro I. apply (Permutation_in _ (isort_perm str_leb _)) in I. apply keys_lookup in I as [s I]. exists (root s). exact (dict_found _ _ _ _ _ D I).
    + intros [dir S]. destruct (dict_has _ _ _ _ _ D S) as [s I]. apply (Permutation_in _ (Permutation_sym (isort_perm str_leb _))).
      apply lookup_In in I. apply in_map_iff. now exists (n, s).
Qed.

(** ** Findings and examples *)
(** A tree with the directories above its paths *)
Fixpoint treeb (f : fs) : bool :=
  match f with
  | nil => true
  | (p, _) :: r => treeb r && negb (mem p (keys r)) && negb (eqb p nil) && match look r (removelast p) with Some Dir => true | _ => false end
  end.
Lemma treeb_tree f : treeb f = true -> tree f.
Proof.
  induction f as [|(p & e) f IH]; cbn [treeb]; intro H; [split; [constructor | discriminate]|].
  apply andb_true_iff in H as (H & D). apply andb_true_iff in H as (H & N). apply andb_true_iff in H as (H & M).
  apply IH in H as [W T]. apply negb_true_iff in M, N. apply mem_not_In in M. apply eqb_neq in N. split; [now constructor|].
  assert (L : forall q, look f q <> None -> q <> p -> look ((p, e) :: f) q = look f q).
  { intros q _ Q. destruct q as [|x q]; [reflexivity|]. cbn [look lookup]. now rewrite (proj2 (eqb_neq (x :: q) p) Q). }
  assert (A : look f (removelast p) = Some Dir) by (destruct (look f (removelast p)) as [[|]|]; [reflexivity | discriminate D | discriminate D]).
  assert (F : look f p = None).
  { rewrite look_ne by exact N. destruct (lookup p f) eqn:E; [|reflexivity]. exfalso. apply M. apply lookup_In in E. apply in_map_iff. now exists (p, e0). }
  intros q e' E. cbn [lookup] in E. destruct (eqb_spec q p) as [->|Q].
  - split; [exact N|]. rewrite L; [exact A | rewrite A; discriminate|]. intro Z. rewrite Z in A. rewrite A in F. discriminate F.
  - apply T in E as [Nq E]. split; [exact Nq|]. rewrite L; [exact E | rewrite E; discriminate|]. intro Z. rewrite Z in E. rewrite E in F. discriminate F.
Qed.
Definition T1 : fpath := [lit "tpl"].
Definition desc : entry := File (lit "description: A book").
(** Two starters (of which the first has a file with the name of descriptions below it) and a directory with a file *)
Definition ex_fs : fs :=
  [(lit "tpl" :: lit "b" :: [lit "starters"; lit "x"; lit "src"; lit "main.dm"], File (lit "text"));
   (lit "tpl" :: lit "b" :: [lit "starters"; lit "x"; lit "src"], Dir);
   (lit "tpl" :: lit "b" :: [lit "starters"; lit "x"; lit "description.yaml"], desc);
   (lit "tpl" :: lit "b" :: [lit "starters"; lit "x"], Dir);
   (lit "tpl" :: lit "b" :: [lit "starters"], Dir); (lit "tpl" :: [lit "b"], Dir); ([lit "tpl"], Dir);
   ([lit "out"; lit "old"], File (lit "old text")); ([lit "out"], Dir)].
Lemma starter_at_inv f tpl n dir : starter_at f tpl n dir -> exists r, In r (descs f tpl) /\ dir = tpl ++ removelast r /\ n = starter_path_to_name r.
Proof.
  intros (r & s & -> & L & ->). exists (r ++ [desc_filename]). rewrite removelast_last, name_desc. split; [|auto].
  apply descs_iff. exists r. split; [reflexivity|]. rewrite look_ne in L by (now destruct tpl, r). apply lookup_In in L. apply in_map_iff. eexists. split; [|exact L]. reflexivity.
Qed.
Example C71_ex :
  tree ex_fs /\ described ex_fs T1 /\ starter_at ex_fs T1 (lit "b/x") (T1 ++ [lit "b"; lit "starters"; lit "x"]) /\
  (forall dir, starter_at ex_fs T1 (lit "b/x") dir -> dir = T1 ++ [lit "b"; lit "starters"; lit "x"]) /\
  clear ex_fs (T1 ++ [lit "b"; lit "starters"; lit "x"]) [lit "out"] /\
  (forall q s, above ex_fs (T1 ++ [lit "b"; lit "starters"; lit "x"]) [lit "out"] q -> look ex_fs q <> Some (File s)) /\
  exists g, init ex_fs T1 [lit "b/x"] [lit "out"] false false false true = (g, Done) /\
    look g [lit "out"; lit "src"; lit "main.dm"] = Some (File (lit "text")) /\ look g [lit "out"; lit "old"] = Some (File (lit "old text")) /\
    init ex_fs T1 [lit "b/x"] [lit "out"] false false false false = (ex_fs, Stopped) /\
    init ex_fs T1 nil [lit "out"] false false false true = (ex_fs, Listed [(lit "b/x", lit "A book")]).
Proof.
  assert (F : forall r s, starter_file ex_fs (T1 ++ [lit "b"; lit "starters"; lit "x"]) r s -> r = [lit "src"; lit "main.dm"]).
  { intros r s F. assert (I : In r (starter_filepaths ex_fs (T1 ++ [lit "b"; lit "starters"; lit "x"]))) by (apply files_iff; now exists s).
    replace (starter_filepaths ex_fs _) with [[lit "src"; lit "main.dm"]] in I by (vm_compute; reflexivity). now destruct I as [<-|[]]. }
  assert (Ds : descs ex_fs T1 = [[lit "b"; lit "starters"; lit "x"; lit "description.yaml"]]) by (vm_compute; reflexivity).
  split; [apply treeb_tree; vm_compute; reflexivity|]. split; [|split; [|split; [|split; [|split]]]].
  - intros r e L. assert (I : In (r ++ [desc_filename]) (descs ex_fs T1)).
    { apply descs_iff. exists r. split; [reflexivity|]. rewrite look_ne in L by discriminate. apply lookup_In in L. apply in_map_iff. eexists. split; [|exact L]. reflexivity. }
    rewrite Ds in I. destruct I as [I|[]]. change [lit "b"; lit "starters"; lit "x"; lit "description.yaml"] with ([lit "b"; lit "starters"; lit "x"] ++ [desc_filename]) in I.
    apply app_inj_tail in I as [<- _]. split; [right; now left|]. vm_compute in L. injection L as <-. exists (lit "description: A book"). split; [reflexivity | vm_compute; discriminate].
  - exists [lit "b"; lit "starters"; lit "x"], (lit "description: A book"). split; [reflexivity|]. split; vm_compute; reflexivity.
  - intros dir S. apply starter_at_inv in S as (r & I & -> & _). rewrite Ds in I. destruct I as [<-|[]]. reflexivity.
  - intros r s Fr. apply F in Fr. subst r. split; [intros q E; discriminate E | vm_compute; discriminate].
  - intros q s (r & s' & t & Fr & Nt & E). apply F in Fr. subst r. cbn [app] in E. intro L.
    destruct q as [|q1 q]; [discriminate L|]. injection E as <- E. destruct q as [|q2 q]; [vm_compute in L; discriminate L|].
    injection E as <- E. destruct q as [|q3 q]; [vm_compute in L; discriminate L|]. injection E as <- E.
    destruct t; [now contradiction Nt|]. now destruct q.
  - eexists. split; [vm_compute; reflexivity|]. repeat split; vm_compute; reflexivity.
Qed.
(** Two starters can have the same name, and then only one of them can be copied *)
Theorem C71_names_refuted :
  ~ (forall f tpl n1 n2 d1 d2, tree f -> starter_at f tpl n1 d1 -> starter_at f tpl n2 d2 -> d1 <> d2 -> n1 <> n2).
Proof.
  intro H. pose (f := [(lit "tpl" :: [lit "b"; lit "starters"; lit "x"; lit "description.yaml"], desc);
   (lit "tpl" :: [lit "b"; lit "starters"; lit "x"], Dir); (lit "tpl" :: [lit "b"; lit "starters"], Dir);
   (lit "tpl" :: [lit "b"; lit "x"; lit "starters"; lit "description.yaml"], desc);
   (lit "tpl" :: [lit "b"; lit "x"; lit "starters"], Dir); (lit "tpl" :: [lit "b"; lit "x"], Dir); (lit "tpl" :: [lit "b"], Dir); ([lit "tpl"], Dir)]).
  apply (H f T1 (lit "b/x") (lit "b/x") (T1 ++ [lit "b"; lit "starters"; lit "x"]) (T1 ++ [lit "b"; lit "x"; lit "starters"])).
  - apply treeb_tree. vm_compute. reflexivity.
  - exists [lit "b"; lit "starters"; lit "x"], (lit "description: A book"). split; [reflexivity|]. split; vm_compute; reflexivity.
  - exists [lit "b"; lit "x"; lit "starters"], (lit "description: A book"). split; [reflexivity|]. split; vm_compute; reflexivity.
  - discriminate.
  - reflexivity.
Qed.
(** A file of a project that is named as descriptions is not copied *)
Theorem C71_all_refuted :
  ~ (forall f tpl name out ni ans g dir r s, tree f -> starter_at f tpl name dir -> (forall dir', starter_at f tpl name dir' -> dir' = dir) ->
       init f tpl [name] out false false ni ans = (g, Done) -> look f (dir ++ r) = Some (File s) -> r <> [lit "description.yaml"] ->
       look g (out ++ r) = Some (File s)).
Proof.
  intro H. pose (f := [(lit "tpl" :: [lit "starters"; lit "x"; lit "src"; lit "description.yaml"], desc);
   (lit "tpl" :: [lit "starters"; lit "x"; lit "src"; lit "main.dm"], File (lit "text")); (lit "tpl" :: [lit "starters"; lit "x"; lit "src"], Dir);
   (lit "tpl" :: [lit "starters"; lit "x"; lit "description.yaml"], desc);
   (lit "tpl" :: [lit "starters"; lit "x"], Dir); (lit "tpl" :: [lit "starters"], Dir); ([lit "tpl"], Dir); ([lit "out"], Dir)]).
  pose (g := fst (init f T1 [lit "x"] [lit "out"] false false true true)).
  specialize (H f T1 (lit "x") [lit "out"] true true g (T1 ++ [lit "starters"; lit "x"]) [lit "src"; lit "description.yaml"] (lit "description: A book")).
  assert (E : look g ([lit "out"] ++ [lit "src"; lit "description.yaml"]) = Some (File (lit "description: A book"))).
  { apply H.
    - apply treeb_tree. vm_compute. reflexivity.
    - exists [lit "starters"; lit "x"], (lit "description: A book"). split; [reflexivity|]. split; vm_compute; reflexivity.
    - intros dir S. apply starter_at_inv in S as (r & I & -> & E).
      replace (descs f T1) with [[lit "starters"; lit "x"; lit "src"; lit "description.yaml"]; [lit "starters"; lit "x"; lit "description.yaml"]] in I by (vm_compute; reflexivity).
      destruct I as [<-|[<-|[]]]; [vm_compute in E; discriminate E | reflexivity].
    - vm_compute. reflexivity.
    - vm_compute. reflexivity.
    - discriminate. }
  vm_compute in E. discriminate E.
Qed.
(** Where there is a directory with the name of a file of the starter, the file is copied into it, and the command is done *)
Theorem C71_directory_refuted :
  ~ (forall f tpl name out ni ans g, tree f -> init f tpl [name] out false false ni ans = (g, Done) ->
       exists dir, starter_at f tpl name dir /\ copied f dir out g).
Proof.
  intro H. pose (f := ([lit "out"; lit "src"; lit "main.dm"], Dir) :: ([lit "out"; lit "src"], Dir) :: ex_fs).
  pose (g := fst (init f T1 [lit "b/x"] [lit "out"] false false true true)).
  destruct (H f T1 (lit "b/x") [lit "out"] true true g) as (dir & S & C).
  - apply treeb_tree. vm_compute. reflexivity.
  - vm_compute. reflexivity.
  - apply starter_at_inv in S as (r & I & -> & _).
    replace (descs f T1) with [[lit "b"; lit "starters"; lit "x"; lit "description.yaml"]] in I by (vm_compute; reflexivity).
    destruct I as [<-|[]]. specialize (C [lit "src"; lit "main.dm"] (lit "text")). assert (E : look g ([lit "out"] ++ [lit "src"; lit "main.dm"]) = Some (File (lit "text"))).
    { apply C. split; [discriminate|]. split; [discriminate | vm_compute; reflexivity]. }
    vm_compute in E. discriminate E.
Qed.
(** One description file without a description, or with an empty one, is an error of the command for all starters *)
Theorem C71_description_refuted :
  ~ (forall f tpl name out dir ni ans, tree f -> starter_at f tpl name dir -> (forall dir', starter_at f tpl name dir' -> dir' = dir) ->
       (exists s, look f (dir ++ [lit "description.yaml"]) = Some (File s) /\ lookup (lit "description") (str_to_dict true s) <> None) ->
       forall e g, init f tpl [name] out true false ni ans <> (g, Failed e)) /\
  ~ (forall f tpl out e, tree f -> described f tpl -> (exists name dir, starter_at f tpl name dir) ->
       init f tpl nil out false true true true <> (f, Failed e)).
Proof.
  split; intro H.
  - pose (f := (lit "tpl" :: lit "b" :: [lit "starters"; lit "y"; lit "description.yaml"], File nil) :: (lit "tpl" :: lit "b" :: [lit "starters"; lit "y"], Dir) :: ex_fs).
    refine (H f T1 (lit "b/x") [lit "out"] (T1 ++ [lit "b"; lit "starters"; lit "x"]) true true _ _ _ _ KeyError f _).
    + apply treeb_tree. vm_compute. reflexivity.
    + exists [lit "b"; lit "starters"; lit "x"], (lit "description: A book"). split; [reflexivity|]. split; vm_compute; reflexivity.
    + intros dir S. apply starter_at_inv in S as (r & I & -> & E).
      replace (descs f T1) with [[lit "b"; lit "starters"; lit "y"; lit "description.yaml"]; [lit "b"; lit "starters"; lit "x"; lit "description.yaml"]] in I by (vm_compute; reflexivity).
      destruct I as [<-|[<-|[]]]; [vm_compute in E; discriminate E | reflexivity].
    + exists (lit "description: A book"). split; [vm_compute; reflexivity | vm_compute; discriminate].
    + vm_compute. reflexivity.
  - pose (f := [(lit "tpl" :: [lit "starters"; lit "x"; lit "description.yaml"], File (lit "description: ")); (lit "tpl" :: [lit "starters"; lit "x"], Dir);
       (lit "tpl" :: [lit "starters"], Dir); ([lit "tpl"], Dir)]).
    refine (H f T1 [lit "out"] IndexError _ _ _ _).
    + apply treeb_tree. vm_compute. reflexivity.
    + intros r e L. assert (I : In (r ++ [desc_filename]) (descs f T1)).
      { apply descs_iff. exists r. split; [reflexivity|]. rewrite look_ne in L by discriminate. apply lookup_In in L. apply in_map_iff. eexists. split; [|exact L]. reflexivity. }
      replace (descs f T1) with [[lit "starters"; lit "x"] ++ [desc_filename]] in I by (vm_compute; reflexivity). destruct I as [I|[]].
      apply app_inj_tail in I as [<- _]. split; [now left|]. vm_compute in L. injection L as <-. exists (lit "description: "). split; [reflexivity | vm_compute; discriminate].
    + exists (lit "x"), (T1 ++ [lit "starters"; lit "x"]), [lit "starters"; lit "x"], (lit "description: "). split; [reflexivity|]. split; vm_compute; reflexivity.
    + vm_compute. reflexivity.
Qed.
