(** Properties C60 and C61 *)
From Coq Require Import String List Bool Arith NArith Permutation Lia.
From Verif.Base Require Import Str StrFacts Dict Sort Result PurePath ListFacts SortFacts PyText.
From Verif.Model Require Import ListUtils Hash Paths Attributes Formats Headers Render.
From Verif.Spec Require Import Hash Paths Render.
From Verif.Proof Require Import Hash Paths.
From Verif.Props Require Import Hash Paths.
Import ListNotations.

Section C60.
Context (file : str -> option path) (refs : str -> list (option str)).

Lemma get_templates_ok : forall names ts, get_templates file names = Ok ts -> names = map Some ts /\ Forall (fun t => file t <> None) ts.
Proof.
  induction names as [|n r IH]; cbn; intros ts E; [injection E as <-; auto|].
  unfold get_template in E. destruct n as [n|]; [|discriminate]. destruct (file n) eqn:F; [|discriminate]. cbn in E.
  destruct (get_templates file r) as [ts'|]; [|discriminate]. injection E as <-. destruct (IH _ eq_refl) as [-> H].
  split; auto. constructor; auto. congruence.
Qed.
Lemma get_templates_some : forall ts, Forall (fun t => file t <> None) ts -> get_templates file (map Some ts) = Ok ts.
Proof.
  induction 1 as [|t r Ht _ IH]; cbn; auto. destruct (file t); [|easy]. cbn. now rewrite IH.
Qed.

(** The loop over the templates that a template refers to *)
Fixpoint files_of (n : nat) (l : list str) (acc : list path) : result (list path) :=
  match l with
  | nil => Ok acc
  | p :: r => do fs <- template_filepaths file refs n p ; files_of n r (acc ++ fs)
  end.
Lemma template_filepaths_S : forall n name, template_filepaths file refs (S n) name =
  match file name with
  | None => Raise FileNotFoundError
  | Some f => do parents <- get_templates file (refs name) ; files_of n parents [f]
  end.
Proof.
  intros n name. cbn [template_filepaths]. destruct (file name) as [f|]; auto. destruct (get_templates file (refs name)) as [l|]; auto.
  cbn [bind]. generalize [f]. induction l as [|p r IH]; intros a; cbn; auto. destruct (template_filepaths file refs n p); cbn; auto.
Qed.
Lemma files_of_In : forall n l acc fs, files_of n l acc = Ok fs ->
  (forall f, In f fs <-> In f acc \/ exists p gs, In p l /\ template_filepaths file refs n p = Ok gs /\ In f gs) /\
  (forall p, In p l -> exists gs, template_filepaths file refs n p = Ok gs).
Proof.
  induction l as [|p r IH]; intros acc fs E; cbn in E.
  - injection E as <-. split; [|easy]. intros f. split; auto. intros [|(p & gs & [] & _)]; auto.
  - destruct (template_filepaths file refs n p) as [gs|] eqn:G; [|discriminate]. cbn in E. destruct (IH _ _ E) as [H1 H2]. split.
    + intros f. rewrite H1, in_app_iff. split.
      * intros [[|]|(q & hs & ? & ? & ?)]; auto; right; [exists p, gs|exists q, hs]; cbn; auto.
      * intros [|(q & hs & [<-|?] & ? & ?)]; auto; [left; right; congruence|]. right. eauto.
    + intros q [<-|Hq]; eauto.
Qed.

(** * C60: a page is rendered again when any of its templates changes *)

(** The files are those of the template and of all templates that it refers to, directly or not. *)
Theorem C60_templates : forall n t fs, template_filepaths file refs n t = Ok fs ->
  forall f, In f fs <-> exists u, reaches refs t u /\ file u = Some f.
Proof.
  induction n as [|n IH]; intros t fs E; [discriminate|]. rewrite template_filepaths_S in E.
  destruct (file t) as [g|] eqn:F; [|discriminate]. destruct (get_templates file (refs t)) as [l|] eqn:G; [|discriminate].
  cbn in E. destruct (get_templates_ok _ _ G) as [R _]. destruct (files_of_In _ _ _ _ E) as [H1 H2].
  intros f. rewrite H1. split.
  - intros [[<-|[]]|(p & gs & Hp & Eg & Hf)]; [exists t; split; [constructor|auto]|].
    apply (IH _ _ Eg) in Hf. destruct Hf as (u & Hr & Hu). exists u. split; auto. eapply reach_ref; eauto. rewrite R. now apply in_map.
  - intros (u & Hr & Hu). inversion Hr; subst; [left; left; congruence|]. right. rewrite R in H. apply in_map_iff in H. destruct H as (v & Ev & Hv).
    injection Ev as ->. destruct (H2 _ Hv) as [gs Eg]. exists u0, gs. split; [auto|]. split; auto. apply (IH _ _ Eg). eauto.
Qed.

(** There is a result when the templates all exist and none refers to itself, whatever their number. *)
Theorem C60_total : forall (rank : str -> nat) t,
  (forall u, reaches refs t u -> file u <> None) ->
  (forall u, reaches refs t u -> forall r, In r (refs u) -> exists v, r = Some v /\ rank v < rank u) ->
  forall n, rank t < n -> exists fs, template_filepaths file refs n t = Ok fs.
Proof.
  intros rank t Hf Hr n. revert t Hf Hr. induction n as [|n IH]; intros t Hf Hr Hn; [lia|]. rewrite template_filepaths_S.
  destruct (file t) as [g|] eqn:F; [|exfalso; apply (Hf t); auto; constructor].
  assert (R : exists l, refs t = map Some l /\ Forall (fun v => In (Some v) (refs t)) l).
  { assert (X : forall r, In r (refs t) -> exists v, r = Some v /\ rank v < rank t) by (apply Hr; constructor).
    revert X. generalize (refs t). induction l as [|r l IHl]; intros X; [exists nil; auto|].
    destruct (X r (or_introl eq_refl)) as (v & -> & _). destruct IHl as (vs & -> & Fv); [firstorder|].
    exists (v :: vs). split; auto. constructor; [now left|]. eapply Forall_impl; [|exact Fv]. intros a Ha. now right. }
  destruct R as (l & R & Fl). rewrite R. rewrite get_templates_some.
  2: { eapply Forall_impl; [|exact Fl]. intros v Hv. apply Hf. eapply reach_ref; [exact Hv|constructor]. }
  cbn [bind]. assert (X : Forall (fun v => exists gs, template_filepaths file refs n v = Ok gs) l).
  { eapply Forall_impl; [|exact Fl]. cbn. intros v Hv. apply IH.
    - intros u Hu. apply Hf. eapply reach_ref; eauto.
    - intros u Hu. apply Hr. eapply reach_ref; eauto.
    - destruct (Hr t (reach_self _ _) _ Hv) as (w & Ew & Hw). injection Ew as <-. lia. }
  revert X. generalize [g]. clear. induction l as [|p r IHl]; intros a X; cbn; eauto.
  inversion X as [|? ? [gs E] X']; subst. rewrite E. cbn. auto.
Qed.

Lemma reaches_ok : forall t u, reaches refs t u -> forall n fs, template_filepaths file refs n t = Ok fs ->
  exists m gs, m <= n /\ template_filepaths file refs m u = Ok gs.
Proof.
  induction 1 as [t|t u v Hi Hr IH]; intros n fs E; [exists n, fs; auto|].
  destruct n as [|n]; [discriminate|]. rewrite template_filepaths_S in E. destruct (file t) as [g|]; [|discriminate].
  destruct (get_templates file (refs t)) as [l|] eqn:G; [|discriminate]. cbn in E. destruct (get_templates_ok _ _ G) as [R _].
  destruct (files_of_In _ _ _ _ E) as [_ H2]. rewrite R in Hi. apply in_map_iff in Hi. destruct Hi as (w & Ew & Hw). injection Ew as ->.
  destruct (H2 _ Hw) as [gs Eg]. destruct (IH _ _ Eg) as (m & hs & Hm & Eh). exists m, hs. auto with arith.
Qed.
Lemma recursive_never : forall t, recursive refs t -> forall n fs, template_filepaths file refs n t <> Ok fs.
Proof.
  intros t (u & Hi & Hr). induction n as [n IH] using lt_wf_ind. intros fs E.
  destruct n as [|n]; [discriminate|]. rewrite template_filepaths_S in E. destruct (file t) as [g|] eqn:F; [|discriminate].
  destruct (get_templates file (refs t)) as [l|] eqn:G; [|discriminate]. cbn in E. destruct (get_templates_ok _ _ G) as [R _].
  destruct (files_of_In _ _ _ _ E) as [_ H2]. assert (Hi' := Hi). rewrite R in Hi'. apply in_map_iff in Hi'. destruct Hi' as (w & Ew & Hw). injection Ew as ->.
  destruct (H2 _ Hw) as [gs Eg]. destruct (reaches_ok _ _ Hr _ _ Eg) as (m & hs & Hm & Eh). apply (IH m) in Eh; auto. lia.
Qed.

(** A missing template is noticed, however far away; and so is a name that is computed, and a template that refers to itself. *)
Theorem C60_errors : forall n t fs, template_filepaths file refs n t = Ok fs ->
  forall u, reaches refs t u -> file u <> None /\ ~ In None (refs u) /\ ~ recursive refs u.
Proof.
  intros n t fs E u Hr. destruct (reaches_ok _ _ Hr _ _ E) as (m & gs & _ & Eg). split; [|split].
  - destruct m; [discriminate|]. rewrite template_filepaths_S in Eg. intros F. rewrite F in Eg. discriminate.
  - destruct m; [discriminate|]. rewrite template_filepaths_S in Eg. destruct (file u); [|discriminate].
    destruct (get_templates file (refs u)) as [l|] eqn:G; [|discriminate]. apply get_templates_ok in G. destruct G as [-> _].
    intros H. apply in_map_iff in H. destruct H as (? & ? & _). discriminate.
  - intros H. apply (recursive_never _ H) in Eg. auto.
Qed.

(** The depth of calls plays no role for the result. *)
Theorem C60_depth : forall n m t fs, template_filepaths file refs n t = Ok fs -> n <= m -> template_filepaths file refs m t = Ok fs.
Proof.
  induction n as [|n IH]; intros m t fs E L; [discriminate|]. destruct m as [|m]; [lia|]. rewrite template_filepaths_S in *.
  destruct (file t); [|discriminate]. destruct (get_templates file (refs t)) as [l|]; [|discriminate]. cbn in *.
  revert E. generalize [p]. induction l as [|q r IHl]; intros a E; cbn in *; auto.
  destruct (template_filepaths file refs n q) as [gs|] eqn:G; [|discriminate]. rewrite (IH m _ _ G) by lia. cbn in *. auto.
Qed.

(** ** The template that is used *)
Lemma select_first : forall l t, select_template file l = Ok t <-> first_of (fun n => file n <> None) l t.
Proof.
  induction l as [|n r IH]; intros t; cbn.
  - split; [discriminate|]. intros (a & b & E & _). destruct a; discriminate.
  - destruct (file n) eqn:F.
    + split.
      * intros E. injection E as <-. exists nil, r. repeat split; auto. congruence.
      * intros (a & b & E & Ht & Fa). destruct a as [|x a]; cbn in E; injection E as <- _; auto.
        inversion Fa; subst. exfalso. apply H1. congruence.
    + rewrite IH. split.
      * intros (a & b & -> & Ht & Fa). exists (n :: a), b. repeat split; auto.
      * intros (a & b & E & Ht & Fa). destruct a as [|x a]; cbn in E; injection E as <- E; [congruence|]. inversion Fa; subst. exists a, b. auto.
Qed.

Lemma suffix_ok ab dir stem suffix target : split_name (stem ++ suffix) = (stem, suffix) -> target <> nil -> ~ In 47%N target ->
  with_suffix (mkpath ab (dir ++ [stem ++ suffix])) (lit "." ++ target) = Ok (mkpath ab (dir ++ [stem ++ lit "." ++ target])).
Proof.
  intros Es Hn Hs. unfold with_suffix.
  assert (M : mem 47%N (lit "." ++ target) = false) by (apply mem_not_In; intros [E|E]; [discriminate E|auto]).
  rewrite M. assert (L : eqb (lit "." ++ target) (lit ".") = false) by (apply eqb_neq; intros E; apply Hn; cbn in E; now injection E).
  rewrite L. assert (W : startswith (lit "." ++ target) (lit ".") = true) by (apply startswith_iff; eauto). rewrite W. rewrite andb_false_r. cbn [orb].
  cbn [parts absolute]. destruct (dir ++ [stem ++ suffix]) eqn:D; [destruct dir; discriminate|]. rewrite <- D. rewrite removelast_last.
  unfold path_stem, path_name. cbn [parts]. rewrite last_last, Es. reflexivity.
Qed.
(** The template is the first that exists of name/target/template.target, of the name with the extension of the
    target in place of its own, and of the name itself.  [dir] is the directory of the name, [stem] and [suffix] its last part. *)
Theorem C60_choice : forall name target t dir stem suffix,
  of_str name = mkpath false (dir ++ [stem ++ suffix]) -> split_name (stem ++ suffix) = (stem, suffix) ->
  target <> nil -> ~ In 46%N target -> ~ In 47%N target ->
  (template file name (lit "." ++ target) = Ok t <->
   first_of (fun n => file n <> None)
     [join (lit "/") (dir ++ [stem ++ suffix; target; lit "template." ++ target]);
      join (lit "/") (dir ++ [stem ++ lit "." ++ target]);
      join (lit "/") (dir ++ [stem ++ suffix])] t).
Proof.
  intros name target t dir stem suffix En Es Hn Hd Hs. unfold template. rewrite <- select_first.
  assert (C : candidates name (lit "." ++ target) =
     Ok [join (lit "/") (dir ++ [stem ++ suffix; target; lit "template." ++ target]);
      join (lit "/") (dir ++ [stem ++ lit "." ++ target]);
      join (lit "/") (dir ++ [stem ++ suffix])]).
  2: { rewrite C. reflexivity. }
  unfold candidates. rewrite En.
  assert (T : strip_c 46%N (lit "." ++ target) = target).
  { unfold strip_c. rewrite <- (app_nil_r target) at 1. apply (strip_p_unique (N.eqb 46) (lit ".") target nil); auto.
    split; [intros c r E|intros c r E]; apply N.eqb_neq; intros <-; apply Hd; rewrite E; [now left|apply in_or_app; right; now left]. }
  rewrite T. rewrite (of_str_name target) by (auto; intros ->; apply Hd; now left).
  assert (X : with_suffix (path_join (path_join (mkpath false (dir ++ [stem ++ suffix])) (mkpath false [target])) (of_str (lit "template"))) (lit "." ++ target) =
    Ok (mkpath false (dir ++ [stem ++ suffix; target; lit "template." ++ target]))).
  { refine (eq_trans (suffix_ok false ((dir ++ [stem ++ suffix]) ++ [target]) (lit "template") nil target eq_refl Hn Hs) _).
    rewrite <- !app_assoc. reflexivity. }
  rewrite X. cbn [bind]. rewrite (suffix_ok false dir stem suffix target Es Hn Hs). cbn [bind map]. unfold path_str. cbn [absolute parts].
  destruct dir; reflexivity.
Qed.
(** There is no template with an empty name. *)
Theorem C60_empty : forall ext t, template file nil ext <> Ok t.
Proof.
  intros ext t. unfold template, candidates. destruct (with_suffix _ _); cbn; [|discriminate].
  unfold with_suffix at 1. destruct (mem 47%N (46%N :: strip_c 46 ext) || _ || _); cbn; discriminate.
Qed.

(** ** The context files of the templates *)
Lemma context_inv is_file : forall fs acc, NoDup acc ->
  let r := fold_left (fun filepaths f =>
    let c := path_join (path_parent (path_parent f)) (of_str (lit "context.txt")) in
    if is_file c && negb (mem c filepaths) then filepaths ++ [c] else filepaths) fs acc in
  NoDup r /\ forall c, In c r <-> In c acc \/ is_file c = true /\ exists f, In f fs /\ c = context_of f.
Proof.
  induction fs as [|f fs IH]; intros acc Nd; cbn [fold_left].
  - split; auto. intros c. split; auto. intros [|(_ & f & [] & _)]; auto.
  - fold (context_of f). cbn zeta. set (c0 := context_of f). destruct (is_file c0) eqn:Hf; cbn [andb].
    + destruct (mem c0 acc) eqn:M; cbn [negb].
      * apply mem_In in M. destruct (IH acc Nd) as [N1 H]. split; [exact N1|]. intros c. rewrite H. split.
        -- intros [|(? & g & ? & ?)]; auto. right. split; auto. exists g. split; auto. now right.
        -- intros [|(? & g & [<-|?] & ->)]; auto. right. split; auto. eauto.
      * apply mem_not_In in M. destruct (IH (acc ++ [c0])) as [N1 H]; [apply (Permutation_NoDup (Permutation_cons_append acc c0)); constructor; auto|]. split; [exact N1|]. intros c. rewrite H, in_app_iff. split.
        -- intros [[|[<-|[]]]|(? & g & ? & ?)]; auto; right; (split; [auto|]); [exists f|exists g]; (split; [|auto]); [now left|now right].
        -- intros [|(? & g & [<-|?] & ->)]; auto; [left; right; now left|]. right. split; auto. eauto.
    + destruct (IH acc Nd) as [N1 H]. split; [exact N1|]. intros c. rewrite H. split.
      * intros [|(? & g & ? & ?)]; auto. right. split; auto. exists g. split; auto. now right.
      * intros [|(? & g & [<-|?] & ->)]; auto; [unfold c0 in Hf; congruence|]. right. split; auto. eauto.
Qed.
Theorem C60_contexts : forall is_file fs,
  NoDup (context_filepaths is_file fs) /\
  forall c, In c (context_filepaths is_file fs) <-> is_file c = true /\ exists f, In f fs /\ c = context_of f.
Proof.
  intros is_file fs. destruct (context_inv is_file fs nil (NoDup_nil _)) as [N1 H]. split; [exact N1|]. intros c.
  unfold context_filepaths. rewrite H. split; [intros [[]|]; auto|auto].
Qed.

(** ** The parameters of a page *)
Lemma param_eqb_iff a b : param_eqb a b = true <-> same_param a b.
Proof.
  destruct a as [x|s], b as [y|t]; cbn; split; try discriminate; try (intros H; inversion H; fail).
  - intros H. apply eqb_eq in H. now constructor.
  - intros H. inversion H; subst. now apply eqb_eq.
  - intros H. apply eqb_eq in H. subst. constructor.
  - intros H. inversion H; subst. apply eqb_refl.
Qed.
Lemma same_refl a : same_param a a. Proof. destruct a; now constructor. Qed.
Lemma same_sym a b : same_param a b -> same_param b a. Proof. destruct 1; now constructor. Qed.
Lemma same_trans a b c : same_param a b -> same_param b c -> same_param a c.
Proof. destruct 1; intros H'; inversion H'; subst; constructor; congruence. Qed.
Lemma existsb_same p l : existsb (param_eqb p) l = true <-> exists q, In q l /\ same_param p q.
Proof. rewrite existsb_exists. split; intros (q & H1 & H2); exists q; (split; [auto|now apply param_eqb_iff]). Qed.
Lemma uniq_params_spec : forall l seen,
  ForallOrdPairs (fun a b => ~ same_param a b) (uniq_params seen l) /\
  (forall p, In p (uniq_params seen l) -> In p l /\ forall q, In q seen -> ~ same_param p q) /\
  (forall p, In p l -> exists q, In q (seen ++ uniq_params seen l) /\ same_param p q).
Proof.
  induction l as [|p r IH]; intros seen; cbn [uniq_params]; [split; [constructor|split; intros p []]|].
  destruct (existsb (param_eqb p) seen) eqn:E.
  - destruct (IH seen) as (H1 & H2 & H3). split; [exact H1|]. split.
    + intros q Hq. destruct (H2 q Hq). split; [now right|auto].
    + intros q [<-|Hq]; auto. apply existsb_same in E. destruct E as (q & Hq & S). exists q. split; auto. apply in_or_app. auto.
  - destruct (IH (p :: seen)) as (H1 & H2 & H3). split.
    + constructor; auto. rewrite Forall_forall. intros q Hq S. destruct (H2 q Hq) as [_ X]. apply (X p); [now left|now apply same_sym].
    + split.
      * intros q [<-|Hq].
        -- split; [now left|]. intros x Hx S. assert (existsb (param_eqb p) seen = true) by (apply existsb_same; eauto). congruence.
        -- destruct (H2 q Hq) as [A B]. split; [now right|]. intros x Hx. apply B. now right.
      * intros q [<-|Hq].
        -- exists p. split; [|apply same_refl]. apply in_or_app. right. now left.
        -- destruct (H3 q Hq) as (x & Hx & S). exists x. split; auto. apply in_app_or in Hx. destruct Hx as [[<-|Hx]|Hx]; apply in_or_app; [right; now left|now left|right; now right].
Qed.

(** The page depends on what was given, on the files of all its templates and their context files, on what the
    scanner finds in these, and on the hashes of the tags; and on nothing else.  No parameter is there twice. *)
Theorem C60_parameters : forall depth is_file scan own name ext hashes ps,
  parameters file refs depth is_file scan own name ext hashes = Ok ps ->
  ForallOrdPairs (fun a b => ~ same_param a b) ps /\
  exists t found, template file name ext = Ok t /\
    (forall p, In p found <-> In p own \/
       (exists u f, reaches refs t u /\ file u = Some f /\ p = file_param f) \/
       (exists u f, reaches refs t u /\ file u = Some f /\ is_file (context_of f) = true /\ p = file_param (context_of f))) /\
    forall q, (exists p, In p ps /\ same_param p q) <->
              (exists p, (In p found \/ In p (scan found) \/ exists h, In h hashes /\ p = PText h) /\ same_param p q).
Proof.
  intros depth is_file scan own name ext hashes ps E. unfold parameters in E. destruct (template file name ext) as [t|] eqn:T; [|discriminate]. cbn [bind] in E.
  destruct (template_filepaths file refs depth t) as [fs|] eqn:F; [|discriminate]. cbn [bind] in E. injection E as <-.
  set (found := (own ++ map file_param fs) ++ map file_param (context_filepaths is_file fs)).
  destruct (uniq_params_spec ((found ++ scan found) ++ map PText (isort str_leb hashes)) nil) as (H1 & H2 & H3). split; [exact H1|].
  exists t, found. split; auto. pose proof (C60_templates _ _ _ F) as HT. destruct (C60_contexts is_file fs) as [_ HC]. split.
  - intros p. unfold found. rewrite !in_app_iff, !in_map_iff. split.
    + intros [[|(f & <- & Hf)]|(c & <- & Hc)]; auto.
      * right. left. apply HT in Hf. destruct Hf as (u & ? & ?). eauto.
      * right. right. apply HC in Hc. destruct Hc as (Hi & f & Hf & ->). apply HT in Hf. destruct Hf as (u & ? & ?). eauto 6.
    + intros [|[(u & f & Hr & Hu & ->)|(u & f & Hr & Hu & Hi & ->)]]; auto.
      * left. right. exists f. split; auto. apply HT. eauto.
      * right. exists (context_of f). split; auto. apply HC. split; auto. exists f. split; auto. apply HT. eauto.
  - intros q. cbn [app] in H3. split.
    + intros (p & Hp & S). exists p. split; auto. destruct (H2 p Hp) as [Hi _]. rewrite !in_app_iff, in_map_iff in Hi.
      destruct Hi as [[|]|(h & <- & Hh)]; auto. right. right. exists h. split; auto. eapply Permutation_in; [apply isort_perm|exact Hh].
    + intros (p & Hp & S). destruct (H3 p) as (x & Hx & Sx).
      * rewrite !in_app_iff, in_map_iff. destruct Hp as [|[|(h & Hh & ->)]]; auto. right. exists h. split; auto. eapply Permutation_in; [apply Permutation_sym, isort_perm|exact Hh].
      * exists x. split; auto. eapply same_trans; [apply same_sym; exact Sx|exact S].
Qed.
End C60.

(** * C61: generated files of different contents have different names *)
Section C61.
Variables (digest hexdigest encode : str -> str).
Hypothesis Hhex : hex hexdigest.

Definition source_of (src : option path) (ps : list param) : option path :=
  match first_subpath ps with Some s => Some s | None => src end.
Definition good_ext (ext : option str) : Prop := match ext with None => True | Some e => is_ext e end.

Lemma no_dot_split n : ~ In 46%N n -> split_name n = (n, nil).
Proof.
  intros H. destruct (split_name_cases n) as [E|[(x & E & Hx & Hd) Es]].
  - pose proof (split_name_app n) as A. rewrite E, app_nil_r in A. destruct (split_name n). cbn in *. congruence.
  - exfalso. apply H. rewrite <- (split_name_app n), E. apply in_or_app. right. now left.
Qed.
Lemma name_In s : parts s <> nil -> In (path_name s) (parts s).
Proof. intros P. unfold path_name. rewrite (app_removelast_last nil P) at 2. apply in_or_app. right. now left. Qed.
Lemma mock_ok : forall files root src ext ps s x, source_of src ps = Some s -> plain_source s -> good_ext ext ->
  generate_mock_parameters digest hexdigest encode files root src ext ps = Ok x ->
  exists h, hash_items digest hexdigest encode 4096 true files (map param_item ps) = Ok h /\
    12 <= length h /\ ~ In 46%N h /\ ~ In 47%N h /\
    x = Source root (mkpath false (removelast (parts s) ++ [path_stem s ++ lit "_" ++ firstn 12 h ++ match ext with Some e => e | None => nil end])).
Proof.
  intros files root src ext ps s x Es (W & A & P & D) He E. unfold generate_mock_parameters in E. fold (source_of src ps) in E. rewrite Es in E.
  assert (X : with_suffix s nil = Ok (mkpath (absolute s) (removelast (parts s) ++ [path_stem s]))).
  { unfold with_suffix. cbn. destruct (parts s); [congruence|]. now rewrite app_nil_r. }
  rewrite X in E. cbn [bind] in E. destruct (hash_items digest hexdigest encode 4096 true files (map param_item ps)) as [h|] eqn:H; [|discriminate]. cbn [bind] in E.
  assert (Hh : exists y, h = hexdigest y).
  { unfold hash_items in H. destruct (hash_each _ _ _ _ _); [|discriminate]. cbn in H. injection H as <-. eauto. }
  destruct Hh as [y Hy]. destruct (Hhex y) as (L & Hd & Hs). rewrite <- Hy in L, Hd, Hs. exists h. repeat (split; [auto; fail|]).
  unfold path_name in E. cbn [parts] in E. rewrite last_last in E.
  assert (Ns : path_stem s <> nil) by now apply path_stem_nonnil.
  assert (F : (filter (fun x : list N => match x with nil => false | _ => true end) [path_stem s; firstn 12 h]) = [path_stem s; firstn 12 h]).
  { cbn [filter]. destruct (path_stem s); [congruence|]. destruct (firstn 12 h) eqn:Fh; auto. exfalso. destruct h; cbn in *; [lia|discriminate]. }
  assert (Hin : forall c, In c (firstn 12 h) -> In c h).
  { intros c Hc. rewrite <- (firstn_skipn 12 h). apply in_or_app. auto. }
  set (n := path_stem s ++ lit "_" ++ firstn 12 h) in *.
  assert (J : join (lit "_") [path_stem s; firstn 12 h] = n) by reflexivity.
  assert (Dn : ~ In 46%N n).
  { unfold n. rewrite !in_app_iff. intros [|[[C|[]]|]]; auto. discriminate C. }
  assert (Sn : ~ In 47%N n).
  { unfold n. rewrite !in_app_iff. intros [I|[[C|[]]|]]; auto; [|discriminate C]. destruct (W (path_name s)) as (_ & _ & Z).
    - now apply name_In.
    - apply Z. rewrite <- (split_name_app (path_name s)). apply in_or_app. left. exact I. }
  assert (Nn : n <> nil) by (unfold n; destruct (path_stem s); [congruence|discriminate]).
  assert (N1 : n <> lit ".") by (intros C; apply Dn; rewrite C; now left).
  rewrite F, J, (of_str_name n Nn N1 Sn) in E.
  assert (G : (match ext with Some (c :: e) => with_suffix (mkpath false [n]) (c :: e) | _ => Ok (mkpath false [n]) end) =
    Ok (mkpath false [n ++ match ext with Some e => e | None => nil end])).
  { destruct ext as [e|]; [|now rewrite app_nil_r]. destruct He as (z & -> & Hz & _ & Hz').
    pose proof (suffix_ok false nil n nil z) as Q. rewrite app_nil_r in Q. apply Q; auto. apply no_dot_split, Dn. }
  rewrite G in E. cbn [bind] in E. unfold path_parent, path_join in E. cbn [absolute parts] in E. rewrite removelast_last, A in E. cbn [source_path absolute] in E.
  unfold source_path in E. cbn [absolute] in E. injection E as <-. unfold n. now rewrite <- !app_assoc.
Qed.

(** The two mock files are the same only if the hashes are *)
Lemma out_inj : forall files files' root src src' mext ps ps' s s' x y e target append ext uc um a b,
  source_of src ps = Some s -> source_of src' ps' = Some s' -> plain_source s -> plain_source s' -> good_ext mext ->
  no_slash append -> no_slash ext ->
  (um = false \/ forall m, media_path e = Some m -> outside m s /\ outside m s') ->
  generate_mock_parameters digest hexdigest encode files root src mext ps = Ok x ->
  generate_mock_parameters digest hexdigest encode files' root src' mext ps' = Ok y ->
  generate_outfilepath (cache_path e) (target_root e) (media_path e) [x] target append ext uc um = Ok (Some a) ->
  generate_outfilepath (cache_path e) (target_root e) (media_path e) [y] target append ext uc um = Ok (Some b) ->
  full a = full b ->
  exists h h', hash_items digest hexdigest encode 4096 true files (map param_item ps) = Ok h /\
    hash_items digest hexdigest encode 4096 true files' (map param_item ps') = Ok h' /\ firstn 12 h = firstn 12 h' /\
    path_parent s = path_parent s' /\ path_stem s = path_stem s'.
Proof.
  intros files files' root src src' mext ps ps' s s' x y e target append ext uc um a b Es Es' Ps Ps' He Ha Hx Hm Ex Ey Ea Eb Eab.
  destruct (mock_ok _ _ _ _ _ _ _ Es Ps He Ex) as (h & Hh & L & Hd & Hsl & X). destruct (mock_ok _ _ _ _ _ _ _ Es' Ps' He Ey) as (h' & Hh' & L' & Hd' & Hsl' & Y).
  exists h, h'. split; auto. split; auto.
  set (me := match mext with Some e => e | None => nil end) in *.
  assert (Hme : ~ In 47%N me /\ (me = nil \/ is_ext me)).
  { unfold me. destruct mext as [z|]; [|split; [intros []|now left]]. split; [|now right]. destruct He as (w & -> & _ & _ & Hw). intros [C|C]; [discriminate C|auto]. }
  destruct Hme as [Hme Hme'].
  assert (Wf : forall s h, plain_source s -> ~ In 47%N h -> wf_path (mkpath false (removelast (parts s) ++ [path_stem s ++ lit "_" ++ firstn 12 h ++ me]))).
  { clear - Hme. intros s h (W & A & P & D) Hs z Hz. cbn [parts] in Hz. apply in_app_or in Hz. destruct Hz as [Hz|[<-|[]]].
    - apply W. rewrite (app_removelast_last nil P). apply in_or_app. now left.
    - split; [destruct (path_stem s); discriminate|]. split.
      + intros C. assert (Lc := f_equal (@length N) C). rewrite !app_length in Lc. pose proof (path_stem_nonnil s W P) as Ns. destruct (path_stem s); [congruence|]. cbn in Lc. lia.
      + rewrite !in_app_iff. intros [I|[[C|[]]|[I|I]]]; auto; [|discriminate C|].
        * destruct (W (path_name s)) as (_ & _ & Z).
          -- now apply name_In.
          -- apply Z. rewrite <- (split_name_app (path_name s)). apply in_or_app. left. exact I.
        * apply Hs. rewrite <- (firstn_skipn 12 h). apply in_or_app. auto. }
  assert (Sf : forall s h, plain_source s -> ~ In 46%N h -> path_suffix (mkpath false (removelast (parts s) ++ [path_stem s ++ lit "_" ++ firstn 12 h ++ me])) = me).
  { clear - Hme'. intros s h (W & A & P & D) Hs. unfold path_suffix, path_name. cbn [parts]. rewrite last_last.
    assert (Dn : ~ In 46%N (path_stem s ++ lit "_" ++ firstn 12 h)).
    { rewrite !in_app_iff. intros [|[[C|[]]|I]]; auto; [discriminate C|]. apply Hs. rewrite <- (firstn_skipn 12 h). apply in_or_app. auto. }
    destruct Hme' as [->|(z & -> & Hz & Hzd & _)].
    - rewrite app_nil_r, no_dot_split; auto.
    - replace (path_stem s ++ lit "_" ++ firstn 12 h ++ 46%N :: z) with ((path_stem s ++ lit "_" ++ firstn 12 h) ++ 46%N :: z) by (now rewrite <- !app_assoc).
      rewrite split_name_ext; auto. destruct (path_stem s); discriminate. }
  assert (Sub : sub_of x = sub_of y).
  { destruct (eqb_spec (sub_of x) (sub_of y)) as [|Ne]; auto. exfalso. revert Eab.
    apply (C34_distinct_partial (cache_path e) (target_root e) (media_path e) x y nil nil target append ext uc um a b); auto; subst x y; cbn [sub_of].
    - now apply Wf.
    - now apply Wf.
    - reflexivity.
    - reflexivity.
    - cbn. destruct (removelast (parts s)); discriminate.
    - cbn. destruct (removelast (parts s')); discriminate.
    - right. rewrite !Sf; auto.
    - destruct Hm as [|Hm]; auto. right. intros m Em. destruct (Hm m Em) as [O1 O2]. destruct Ps as (_ & A & _). destruct Ps' as (_ & A' & _).
      specialize (O1 (firstn 12 h ++ me)). specialize (O2 (firstn 12 h' ++ me)). unfold path_join, path_parent in O1, O2. cbn [absolute parts] in O1, O2. rewrite A in O1. rewrite A' in O2.
      now rewrite O1, O2.
    - right. exact I. }
  subst x y. cbn [sub_of] in Sub. assert (E : removelast (parts s) ++ [path_stem s ++ lit "_" ++ firstn 12 h ++ me] = removelast (parts s') ++ [path_stem s' ++ lit "_" ++ firstn 12 h' ++ me]) by congruence.
  apply app_inj_tail in E. destruct E as [E1 E2]. rewrite !app_assoc in E2. apply app_inv_tail in E2. rewrite <- !app_assoc in E2.
  assert (Ll : length (firstn 12 h) = length (firstn 12 h')) by (rewrite !firstn_length; lia).
  assert (Q : path_stem s = path_stem s' /\ lit "_" ++ firstn 12 h = lit "_" ++ firstn 12 h').
  { apply app_len_inj; auto. apply (f_equal (@length N)) in E2. rewrite !app_length in E2. lia. }
  destruct Q as [Q1 Q2]. cbn in Q2. injection Q2 as Q2. split; [exact Q2|]. split; [|exact Q1].
  unfold path_parent. destruct Ps as (_ & A & _). destruct Ps' as (_ & A' & _). congruence.
Qed.

(** Files made of texts (diagrams, equations) in the same environment, asked with the same options: the same name means
    the same texts, and a source file with the same directory and name. *)
Theorem C61_texts_partial : forall files files' e src src' iext target append ext uc um l l' (S : str -> Prop) k a b,
  plain_source src -> plain_source src' -> good_ext iext -> no_slash append -> no_slash ext ->
  (um = false \/ forall m, media_path e = Some m -> outside m src /\ outside m src') ->
  0 < k -> (forall x, length (digest x) = k) -> (forall x y, encode x = encode y -> x = y) ->
  Forall S (map encode l) -> Forall S (map encode l') -> no_collision digest S ->
  S (concat (isort str_leb (map digest (map encode l)))) -> S (concat (isort str_leb (map digest (map encode l')))) ->
  no_collision (fun x => firstn 12 (hexdigest x)) S ->
  builder_outfilepath digest hexdigest encode files e (Some src) iext target append ext uc um (map PText l) = Ok (Some a) ->
  builder_outfilepath digest hexdigest encode files' e (Some src') iext target append ext uc um (map PText l') = Ok (Some b) ->
  full a = full b ->
  Permutation l l' /\ path_parent src = path_parent src' /\ path_stem src = path_stem src'.
Proof.
  intros files files' e src src' iext target append ext uc um l l' S k a b Ps Ps' He Ha Hx Hm Hk Hlen Henc Sb Sb' NC S1 S2 NH Ea Eb Eab.
  assert (F : forall l, flat_map (fun p => match p with PPath x => [x] | PText _ => nil end) (map PText l) = nil) by (induction l0; auto).
  assert (So : forall l src, source_of src (map PText l) = src) by (intros l0 s0; unfold source_of; assert (Z : first_subpath (map PText l0) = None) by (induction l0; auto); now rewrite Z).
  unfold builder_outfilepath in Ea, Eb. rewrite F in Ea, Eb.
  destruct (generate_mock_parameters digest hexdigest encode files (root e) (Some src) iext (map PText l)) as [x|] eqn:Ex; [|discriminate].
  destruct (generate_mock_parameters digest hexdigest encode files' (root e) (Some src') iext (map PText l')) as [y|] eqn:Ey; [|discriminate]. cbn [bind] in Ea, Eb.
  destruct (out_inj _ _ _ _ _ _ _ _ _ _ _ _ _ _ _ _ _ _ _ _ (So l (Some src)) (So l' (Some src')) Ps Ps' He Ha Hx Hm Ex Ey Ea Eb Eab) as (h & h' & H1 & H2 & H3 & H4 & H5).
  split; [|auto]. assert (B : forall files l, Forall2 (bytes_of encode files) (map param_item (map PText l)) (map encode l)).
  { induction l0; cbn; constructor; auto. constructor. }
  assert (P : Permutation (map encode l) (map encode l')).
  { apply (C29_distinct digest (fun x => firstn 12 (hexdigest x)) encode 4096 k files (map param_item (map PText l)) (map encode l) files' (map param_item (map PText l')) (map encode l') S (firstn 12 h)); auto; try lia.
    - unfold hash_items in *. destruct (hash_each _ _ _ _ _); [|discriminate]. cbn [bind] in *. congruence.
    - unfold hash_items in *. destruct (hash_each digest encode 4096 files' _); [|discriminate]. cbn [bind] in *. congruence. }
  destruct (Permutation_map_inv _ _ (Permutation_sym P)) as (l2 & E & P2).
  assert (l' = l2) as ->; [|exact P2].
  clear - E Henc. revert l2 E. induction l' as [|x l IH]; intros [|y l2] E; cbn in E; try discriminate; auto. injection E as E1 E2. f_equal; auto.
Qed.

(** Rendered pages: the same name means the same bytes of the inputs, in some order. *)
Theorem C61_pages_partial : forall files files' e src src' rext target uc um ps ps' s s' bs bs' (S : str -> Prop) k a b,
  source_of src ps = Some s -> source_of src' ps' = Some s' -> plain_source s -> plain_source s' -> no_slash rext ->
  (um = false \/ forall m, media_path e = Some m -> outside m s /\ outside m s') ->
  0 < k -> (forall x, length (digest x) = k) ->
  Forall2 (bytes_of encode files) (map param_item ps) bs -> Forall2 (bytes_of encode files') (map param_item ps') bs' ->
  Forall S bs -> Forall S bs' -> no_collision digest S ->
  S (concat (isort str_leb (map digest bs))) -> S (concat (isort str_leb (map digest bs'))) ->
  no_collision (fun x => firstn 12 (hexdigest x)) S ->
  render_outfilepath digest hexdigest encode files e src rext target uc um ps = Ok (Some a) ->
  render_outfilepath digest hexdigest encode files' e src' rext target uc um ps' = Ok (Some b) ->
  full a = full b -> Permutation bs bs'.
Proof.
  intros files files' e src src' rext target uc um ps ps' s s' bs bs' S k a b Es Es' Ps Ps' Hx Hm Hk Hlen B B' Sb Sb' NC S1 S2 NH Ea Eb Eab.
  unfold render_outfilepath in Ea, Eb.
  destruct ps as [|p0 ps0] eqn:Eps; [discriminate|]. destruct ps' as [|p1 ps1] eqn:Eps'; [discriminate|]. rewrite <- Eps, <- Eps' in *.
  destruct (generate_mock_parameters digest hexdigest encode files (root e) src (Some (lit ".render")) ps) as [x|] eqn:Ex; [|discriminate].
  destruct (generate_mock_parameters digest hexdigest encode files' (root e) src' (Some (lit ".render")) ps') as [y|] eqn:Ey; [|discriminate]. cbn [bind] in Ea, Eb.
  assert (He : good_ext (Some (lit ".render"))).
  { exists (lit "render"). split; [reflexivity|]. split; [discriminate|]. split; vm_compute; intuition discriminate. }
  assert (Hn : no_slash None) by (intros z E; discriminate).
  destruct (out_inj _ _ _ _ _ _ _ _ _ _ _ _ _ _ _ _ _ _ _ _ Es Es' Ps Ps' He Hn Hx Hm Ex Ey Ea Eb Eab) as (h & h' & H1 & H2 & H3 & H4 & H5).
  apply (C29_distinct digest (fun x => firstn 12 (hexdigest x)) encode 4096 k files (map param_item ps) bs files' (map param_item ps') bs' S (firstn 12 h)); auto; try lia.
  - unfold hash_items in *. destruct (hash_each digest encode 4096 files _); [|discriminate]. cbn [bind] in *. congruence.
  - unfold hash_items in *. destruct (hash_each digest encode 4096 files' _); [|discriminate]. cbn [bind] in *. congruence.
Qed.
End C61.

(** Finding: the name of a source file with a further dot (ch.1.dm) is cut at that dot, and with it the hash, so that all
    diagrams of the document are the same file. *)
Definition ex_env : env := mkenv (of_str (lit "/p/.cache")) (of_str (lit "/p")) (Some (lit "media")) (of_str (lit "/p/src")).
Definition asy (digest hexdigest encode : str -> str) (src : str) (text : str) : result (option xpath) :=
  builder_outfilepath digest hexdigest encode nil ex_env (Some (of_str src)) (Some (lit ".asy")) (Some (lit ".html")) None (Some (lit ".svg")) false true [PText text].
Lemma asy_dotted digest hexdigest encode t : hex hexdigest ->
  asy digest hexdigest encode (lit "ch.1.dm") t = Ok (Some (Target (of_str (lit "/p")) (lit "html") (of_str (lit "media/ch.svg")))).
Proof.
  intros Hh. unfold asy, builder_outfilepath. cbn [flat_map app].
  assert (G : generate_mock_parameters digest hexdigest encode nil (root ex_env) (Some (of_str (lit "ch.1.dm"))) (Some (lit ".asy")) [PText t] =
    Ok (Source (root ex_env) (mkpath false [lit "ch.asy"]))).
  { unfold generate_mock_parameters. cbn [first_subpath]. change (with_suffix (of_str (lit "ch.1.dm")) nil) with (Ok (mkpath false [lit "ch.1"])). cbn [bind map param_item].
    unfold hash_items. cbn [hash_each hash_item bind]. set (h := hexdigest _).
    assert (Hp : 12 <= length h /\ ~ In 46%N h /\ ~ In 47%N h) by apply Hh. destruct Hp as (L & Hd & Hs). clearbody h.
    destruct (firstn 12 h) as [|c r] eqn:Fh; [destruct h; cbn in *; [lia|discriminate]|].
    assert (Hin : forall x, In x (c :: r) -> In x h) by (intros x Hx; rewrite <- (firstn_skipn 12 h), Fh; apply in_or_app; auto).
    change (filter _ _) with [lit "ch.1"; c :: r]. change (join (lit "_") [lit "ch.1"; c :: r]) with (lit "ch" ++ 46%N :: (lit "1_" ++ c :: r)).
    set (n := lit "1_" ++ c :: r).
    assert (Dn : ~ In 46%N n) by (unfold n; cbn; intros [C|[C|C]]; [discriminate C|discriminate C|auto]).
    assert (Sn : ~ In 47%N n) by (unfold n; cbn; intros [C|[C|C]]; [discriminate C|discriminate C|auto]).
    rewrite of_str_name; [|discriminate|discriminate|cbn; intros [C|[C|[C|C]]]; [discriminate C|discriminate C|discriminate C|auto]].
    assert (Q : with_suffix (mkpath false [lit "ch" ++ 46%N :: n]) (46%N :: lit "asy") = Ok (mkpath false [lit "ch.asy"])).
    { refine (suffix_ok false nil (lit "ch") (46%N :: n) (lit "asy") _ _ _); [|discriminate|vm_compute; intuition discriminate].
      apply split_name_ext; auto; [discriminate|unfold n; discriminate]. }
    change (lit ".asy") with (46%N :: lit "asy"). cbv iota. rewrite Q. reflexivity. }
  rewrite G. vm_compute. reflexivity.
Qed.
Theorem C61_dotted_refuted : forall digest hexdigest encode, hex hexdigest ->
  ~ (forall t u a b, asy digest hexdigest encode (lit "ch.1.dm") t = Ok (Some a) -> asy digest hexdigest encode (lit "ch.1.dm") u = Ok (Some b) ->
     full a = full b -> t = u).
Proof.
  intros digest hexdigest encode Hh H.
  pose proof (H _ _ _ _ (asy_dotted digest hexdigest encode (lit "draw(A);") Hh) (asy_dotted digest hexdigest encode (lit "draw(B);") Hh) eq_refl) as C.
  discriminate C.
Qed.

(** ** Equations: findings *)
(** Two equations whose images have the same parameters, for one target, may be typeset in different ways: a bold term is
    the same for the name of the image as a term that is not bold, *)
Theorem C61_bold_refuted : forall uw pv,
  ~ (forall e f, eq_raw e = eq_raw f -> eq_attrs e = eq_attrs f -> eq_parameters (lit ".html") e = eq_parameters (lit ".html") f -> eq_tex uw pv e = eq_tex uw pv f).
Proof.
  intros uw pv H. specialize (H (mkeq (lit "term") (lit "x") (lit "x") nil false) (mkeq (lit "termb") (lit "x") (lit "x") nil false) eq_refl eq_refl eq_refl).
  vm_compute in H. discriminate H.
Qed.
(** and so are two equations that differ in the environment for tex. *)
Theorem C61_env_refuted : forall uw pv,
  ~ (forall e f, eq_raw e = eq_raw f -> eq_name e = eq_name f -> eq_parameters (lit ".html") e = eq_parameters (lit ".html") f -> eq_tex uw pv e = eq_tex uw pv f).
Proof.
  intros uw pv H.
  specialize (H (mkeq (lit "eq") (lit "x") (lit "x") [(lit "env.tex", VStr (lit "gather*"))] true) (mkeq (lit "eq") (lit "x") (lit "x") nil true) eq_refl eq_refl).
  assert (C : eq_tex uw pv (mkeq (lit "eq") (lit "x") (lit "x") [(lit "env.tex", VStr (lit "gather*"))] true) = eq_tex uw pv (mkeq (lit "eq") (lit "x") (lit "x") nil true)).
  { apply H. vm_compute. reflexivity. }
  vm_compute in C. discriminate C.
Qed.

(** ** Context files: finding *)
(** The headers use the context file of the directory above a template, if the template has none (C59); but a page does
    not depend on it, so that it is not rendered again when that file changes. *)
Definition tufte_file (n : str) : option path :=
  if eqb n (lit "books/tufte/html/template.html") then Some (of_str (lit "/t/books/tufte/html/template.html")) else None.
Definition tufte_text (p : path) : option str :=
  if eqb (path_str p) (lit "/t/books/context.txt") then Some (lit "size: 12") else None.
Definition tufte_dir (p : path) : bool := mem (path_str p) [lit "/t"; lit "/t/books"; lit "/t/books/tufte"].
Theorem C60_context_refuted :
  ~ (forall file refs bases is_dir text templates_in name ext depth t fs c,
     template file name ext = Ok t -> template_filepaths file refs depth t = Ok fs ->
     In c (Headers.find_additional_context_filepaths text (Headers.all_template_paths bases is_dir templates_in (of_str name))) ->
     In c (context_filepaths (Headers.is_file text) fs)).
Proof.
  intros H.
  specialize (H tufte_file (fun _ => nil) [of_str (lit "/t")] tufte_dir tufte_text (fun _ => nil) (lit "books/tufte") (lit ".html") 2
    (lit "books/tufte/html/template.html") [of_str (lit "/t/books/tufte/html/template.html")] (of_str (lit "/t/books/context.txt"))).
  apply H; [vm_compute; reflexivity|vm_compute; reflexivity|vm_compute; left; reflexivity].
Qed.
(** The context file in the own directory of a template is among the files that the page depends on. *)
Theorem C60_own_context : forall file refs base text name target depth t fs f,
  template file name (lit "." ++ target) = Ok t -> template_filepaths file refs depth t = Ok fs -> file t = Some f ->
  f = path_join (path_join base (of_str name)) (mkpath false [target; lit "template." ++ target]) ->
  let c := path_join (path_join base (of_str name)) (of_str (lit "context.txt")) in
  Headers.is_file text c = true -> In c (context_filepaths (Headers.is_file text) fs).
Proof.
  intros file refs base text name target depth t fs f Et Ef Ff -> c Hc. apply C60_contexts. split; [exact Hc|].
  eexists. split; [apply (C60_templates _ _ _ _ _ Ef); exists t; split; [constructor|exact Ff]|].
  unfold c, context_of. f_equal. set (d := path_join base (of_str name)). unfold path_parent, path_join. cbn [absolute parts].
  change [target; lit "template." ++ target] with ([target] ++ [lit "template." ++ target]). rewrite app_assoc, !removelast_last. destruct d; reflexivity.
Qed.
(** Templates that include themselves, which jinja2 can render when the inclusion is conditional, cannot be used. *)
Theorem C60_recursive_refuted : ~ (forall file refs t, (forall u, reaches refs t u -> file u <> None) -> exists n fs, template_filepaths file refs n t = Ok fs).
Proof.
  intros H. destruct (H (fun _ => Some (of_str (lit "/t/toc.html"))) (fun _ => [Some (lit "toc.html")]) (lit "toc.html")) as (n & fs & E); [discriminate|].
  revert E. apply recursive_never. exists (lit "toc.html"). split; [now left|constructor].
Qed.

(** ** Examples *)
Definition ex_files (n : str) : option path := if mem n [lit "a/html/template.html"; lit "b/html/template.html"; lit "b/html/menu.html"] then Some (path_join (of_str (lit "/t")) (of_str n)) else None.
Definition ex_refs (n : str) : list (option str) :=
  if eqb n (lit "a/html/template.html") then [Some (lit "b/html/template.html")]
  else if eqb n (lit "b/html/template.html") then [Some (lit "b/html/menu.html")] else nil.
Definition ex_is_file (p : path) : bool := eqb (path_str p) (lit "/t/b/context.txt").
Example C60_ex :
  of_str (lit "a") = mkpath false (nil ++ [lit "a" ++ nil]) /\ split_name (lit "a" ++ nil) = (lit "a", nil) /\
  template ex_files (lit "a") (lit ".html") = Ok (lit "a/html/template.html") /\
  match parameters ex_files ex_refs 4 ex_is_file (fun _ => nil) [PText (lit "build")] (lit "a") (lit ".html") [lit "h2"; lit "h1"] with
  | Ok ps => map (fun p => match p with PPath x => path_str (full x) | PText s => s end) ps =
      map lit ["build"; "/t/a/html/template.html"; "/t/b/html/template.html"; "/t/b/html/menu.html"; "/t/b/context.txt"; "h1"; "h2"]%string
  | Raise _ => False
  end.
Proof. repeat split; vm_compute; reflexivity. Qed.

(** A diagram of a document in a directory, with a hash whose characters are a, b, ... *)
Definition letters (x : str) : str := map (fun c => (97 + c mod 16)%N) x ++ repeat 97%N 12.
Lemma letters_hex : hex letters.
Proof.
  intros x. unfold letters. rewrite app_length, repeat_length. split; [lia|]. assert (G : forall c, In c (map (fun c => (97 + c mod 16)%N) x ++ repeat 97%N 12) -> (97 <= c)%N).
  { intros c Hc. apply in_app_or in Hc. destruct Hc as [Hc|Hc]; [apply in_map_iff in Hc; destruct Hc as (y & <- & _); apply N.le_add_r|apply repeat_spec in Hc; lia]. }
  split; intros C; apply G in C; lia.
Qed.
Definition ex_digest (x : str) : str := firstn 3 (N.of_nat (List.length x) :: x ++ [0; 0]%N).
Definition ex_texts : list str := [lit "ab"; lit "cd"; ex_digest (lit "ab"); ex_digest (lit "cd")].
Example C61_ex :
  plain_source (of_str (lit "ch1/intro.dm")) /\ outside (lit "media") (of_str (lit "ch1/intro.dm")) /\ good_ext (Some (lit ".asy")) /\ hex letters /\
  match asy (fun x => x) letters (fun x => x) (lit "ch1/intro.dm") (lit "draw(A);") with
  | Ok (Some a) => path_str (full a) = lit "/p/html/media/ch1/intro_ecbhibjlaaaa.svg"
  | _ => False
  end /\
  (forall x, List.length (ex_digest x) = 3) /\ no_collision ex_digest (fun x => In x ex_texts) /\
  no_collision (fun x => firstn 12 (letters x)) (fun x => In x ex_texts) /\
  Forall (fun x => In x ex_texts) [lit "ab"] /\ In (concat (isort str_leb (map ex_digest [lit "ab"]))) ex_texts /\
  Forall (fun x => In x ex_texts) [lit "cd"] /\ In (concat (isort str_leb (map ex_digest [lit "cd"]))) ex_texts.
Proof.
  split; [|split; [|split; [|split; [exact letters_hex|split; [|split; [|split; [|split]]]]]]].
  - split; [apply of_str_wf|]. split; [reflexivity|]. split; [discriminate|]. vm_compute. intuition discriminate.
  - intros rest. reflexivity.
  - exists (lit "asy"). split; [reflexivity|]. split; [discriminate|]. split; vm_compute; intuition discriminate.
  - vm_compute. reflexivity.
  - intros x. unfold ex_digest. rewrite firstn_length. cbn [List.length]. rewrite app_length. cbn [List.length]. lia.
  - intros x y [<-|[<-|[<-|[<-|[]]]]] [<-|[<-|[<-|[<-|[]]]]] E; try reflexivity; vm_compute in E; discriminate E.
  - intros x y [<-|[<-|[<-|[<-|[]]]]] [<-|[<-|[<-|[<-|[]]]]] E; try reflexivity; vm_compute in E; discriminate E.
  - split; [repeat constructor|]. split; [vm_compute; auto|]. split; [constructor; [cbn; auto|constructor]|vm_compute; auto].
Qed.
