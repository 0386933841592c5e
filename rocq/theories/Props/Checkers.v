(** C49: the dependency checkers. *)
From Coq Require Import List Bool Arith Lia NArith.
From Verif.Base Require Import Str StrFacts Result.
From Verif.Model Require Import Checkers.
From Verif.Spec Require Import Checkers.
From Verif.Proof Require Import Checkers.
Import ListNotations.

(** * C49 *)

(** A list is available exactly if its condition holds for its members. *)
Theorem C49_available : forall d : dep, available d = Some true <-> met (fun _ a => a = Some true) d.
Proof. exact available_met. Qed.

(** A check for executables answers for those without an answer, and only searches those, in
    order, each once.  A second check searches nothing and changes nothing. *)
Theorem C49_executables : forall (which : str -> bool) (d : dep),
  fst (check_exec which d) = answered (fun n a => match a with None => Some (which n) | Some b => Some b end) d /\
  snd (check_exec which d) = map fst (filter (fun e : str * option bool => match snd e with None => true | Some _ => false end) (leaves d)) /\
  forall which', check_exec which' (fst (check_exec which d)) = (fst (check_exec which d), []).
Proof.
  intros which d. rewrite check_exec_eq. cbn [fst snd]. split; [reflexivity|]. split; [reflexivity|].
  intros which'. rewrite check_exec_eq, answered_searched_twice, unchecked_searched. reflexivity.
Qed.

(** The flat list has all items up to 16 levels. *)
Theorem C49_flatten_partial : forall l : list dep,
  (forall d, In d l -> depth d <= 15) -> flatten l = Ok (flat_map (preorder 1) l).
Proof.
  intros l H. unfold flatten. rewrite flatten_each_eq by lia.
  assert (Hd : deepest l <= 15).
  { clear -H. induction l as [|x l IH]; [cbn; lia|]. cbn [deepest fold_right]. fold (deepest l).
    pose proof (H x (or_introl eq_refl)). assert (deepest l <= 15) by (apply IH; intros y Hy; apply H; right; exact Hy). lia. }
  rewrite (proj2 (Nat.leb_le _ _)) by lia. reflexivity.
Qed.
(** Finding: deeper lists are an error. *)
Theorem C49_flatten_deep : forall (l : list dep) (d : dep), In d l -> 15 < depth d -> flatten l = Raise TypeError.
Proof.
  intros l d Hi Hd. unfold flatten. rewrite flatten_each_eq by lia.
  assert (H : depth d <= deepest l).
  { clear -Hi. induction l as [|x l IH]; [destruct Hi|]. cbn [deepest fold_right]. fold (deepest l).
    destruct Hi as [<-|Hi]; [lia|]. specialize (IH Hi). lia. }
  destruct (Nat.leb_spec (1 + deepest l) 16); [lia|reflexivity].
Qed.
Theorem C49_flatten_refuted : ~ (forall l : list dep, exists r, flatten l = Ok r).
Proof.
  intros H. destruct (H [Nat.iter 16 (fun d => Group KAll [] [d]) (Dep [] None)]) as [r E].
  vm_compute in E. discriminate E.
Qed.

Lemma available_answered f k c sub :
  available (Group k c (map (answered f) sub)) = Some true <-> met (fun n a => f n a = Some true) (Group k c sub).
Proof.
  change (Group k c (map (answered f) sub)) with (answered f (Group k c sub)).
  rewrite available_met. apply (met_answered (fun _ a => a = Some true)).
Qed.
Lemma available_exec which k c sub : (forall x, In x sub -> fresh x) ->
  (available (Group k c (map (fun x => fst (check_exec which x)) sub)) = Some true <-> met (fun n _ => which n = true) (Group k c sub)).
Proof.
  intros Hf. rewrite (map_ext _ (answered (searched which))) by (intros x; rewrite check_exec_eq; reflexivity).
  rewrite available_answered. apply fresh_met.
  - intros n a Hi. rewrite leaves_group in Hi. apply in_flat_map in Hi as (x & Hx & Hi). exact (Hf x Hx n a Hi).
  - intros n. cbn [searched]. split; congruence.
Qed.
Lemma not_met_none k c sub : (forall x, In x sub -> fresh x) ->
  (available (Group k c sub) = Some true <-> met (fun _ _ => False) (Group k c sub)).
Proof.
  intros Hf. rewrite available_met. apply fresh_met; [|split; [discriminate|tauto]].
  intros n a Hi. rewrite leaves_group in Hi. apply in_flat_map in Hi as (x & Hx & Hi). exact (Hf x Hx n a Hi).
Qed.

(** The members of a list of a category *)
Definition fresh_lists (l : list dep) : Prop := forall k c sub x, In (Group k c sub) l -> In x sub -> fresh x.

(** A check passes exactly if the conditions of all lists hold for what is installed: executables
    that are found ... *)
Theorem C49_check_images :
  forall (which : str -> bool) (name : str) (k : kind) (sub : list dep),
    (forall x, In x sub -> fresh x) ->
    exists l' b, check (base_handlers which) name [Group k (lit "executables") sub] = Ok (l', b) /\
      (b = Some true <-> met (fun n _ => which n = true) (Group k (lit "executables") sub)).
Proof.
  intros which name k sub Hf.
  set (F := fun (_ : str) (s : list dep) => Ok (map (fun x => fst (check_exec which x)) s)).
  assert (Hg : groups [Group k (lit "executables") sub]) by (intros x [<-|[]]; eauto).
  assert (Hn : NoDup (map label [Group k (lit "executables") sub])) by (apply NoDup_cons; [intros []|constructor]).
  assert (Hh : forall x, In x [Group k (lit "executables") sub] ->
    base_handlers which (label x) = Some (on_category (label x) (F (label x)))) by (intros x [<-|[]]; reflexivity).
  destruct (run_checks_total (base_handlers which) F [Group k (lit "executables") sub] [] Hg Hn Hh) as [l' E]; [intros c s; eexists; reflexivity|].
  exists l', (available (Group KAll name l')). cbn [app] in E.
  assert (Ec : check (base_handlers which) name [Group k (lit "executables") sub] = Ok (l', available (Group KAll name l'))).
  { unfold check. rewrite E. reflexivity. }
  split; [exact Ec|].
  rewrite (check_met (base_handlers which) F (fun _ n => which n = true) name _ l' _ Hg Hn Hh); [| |exact Ec].
  - split; [intros H; apply (H k); left; reflexivity|]. intros H k' c' s [[= <- <- <-]|[]]. exact H.
  - intros k' c' s s' [[= <- <- <-]|[]] [= <-]. apply available_exec. exact Hf.
Qed.
(** ... and files that are found by kpsewhich, if there is one ... *)
Definition extension (c : str) : str :=
  if eqb c (lit "packages") then lit ".sty" else if eqb c (lit "fonts") then lit ".tfm" else lit ".cls".
Theorem C49_check_pdf :
  forall (which found : str -> bool) (name : str) (l : list dep),
    (forall x, In x l -> exists k c sub, x = Group k c sub /\ In c [lit "executables"; lit "packages"; lit "fonts"; lit "classes"]) ->
    NoDup (map label l) -> fresh_lists l ->
    exists l' b, check (pdf_handlers which found) name l = Ok (l', b) /\
      (b = Some true <-> forall k c sub, In (Group k c sub) l ->
         met (fun n _ => if eqb c (lit "executables") then which n = true
                         else which (lit "kpsewhich") = true /\ found (n ++ extension c) = true) (Group k c sub)).
Proof.
  intros which found name l Hl Hn Hf.
  set (F := fun (c : str) (s : list dep) =>
    if eqb c (lit "executables") then Ok (map (fun x => fst (check_exec which x)) s)
    else Ok (if which (lit "kpsewhich") then map (kpse found (extension c)) s else s)).
  assert (Hg : groups l) by (intros x Hx; destruct (Hl x Hx) as (k & c & sub & E & _); eauto).
  assert (Hh : forall x, In x l -> pdf_handlers which found (label x) = Some (on_category (label x) (F (label x)))).
  { intros x Hx. destruct (Hl x Hx) as (k & c & sub & -> & Hc). cbn [label].
    destruct Hc as [<-|[<-|[<-|[<-|[]]]]]; reflexivity. }
  destruct (run_checks_total (pdf_handlers which found) F l [] Hg Hn Hh) as [l' E].
  { intros c s. unfold F. destruct (eqb c (lit "executables")); eexists; reflexivity. }
  exists l', (available (Group KAll name l')). cbn [app] in E.
  assert (Ec : check (pdf_handlers which found) name l = Ok (l', available (Group KAll name l'))).
  { unfold check. rewrite E. reflexivity. }
  split; [exact Ec|].
  apply (check_met (pdf_handlers which found) F (fun c n => if eqb c (lit "executables") then which n = true
                         else which (lit "kpsewhich") = true /\ found (n ++ extension c) = true) name l l' _ Hg Hn Hh); [|exact Ec].
  intros k c sub sub' Hi Ef. unfold F in Ef. destruct (eqb c (lit "executables")).
  - injection Ef as <-. apply available_exec. intros x. apply (Hf k c sub x Hi).
  - destruct (which (lit "kpsewhich")); injection Ef as <-.
    + rewrite (map_ext _ (answered (fun n _ => Some (found (n ++ extension c))))) by (intros x; apply kpse_eq).
      rewrite available_answered. split; apply met_ext; intros n a _ H; [split; [reflexivity|congruence]|destruct H; congruence].
    + rewrite (not_met_none k c sub) by (intros x; apply (Hf k c sub x Hi)).
      split; apply met_ext; intros n a _ H; [destruct H|destruct H; discriminate].
Qed.
(** ... and packages that are found by pip. *)
Theorem C49_check_python :
  forall (which : str -> bool) (uw : char -> bool) (lower : str -> str) (freeze : list str) (name : str) (l l' : list dep) (b : option bool),
    (forall x, In x l -> exists k c sub, x = Group k c sub /\ In c [lit "executables"; lit "packages"]) ->
    NoDup (map label l) -> fresh_lists l ->
    check (python_handlers which uw lower (Some freeze)) name l = Ok (l', b) ->
    (b = Some true <-> forall k c sub, In (Group k c sub) l ->
       met (fun n _ => if eqb c (lit "executables") then which n = true else pip_found uw lower freeze n = Ok true) (Group k c sub)).
Proof.
  intros which uw lower freeze name l l' b Hl Hn Hf.
  set (F := fun (c : str) (s : list dep) =>
    if eqb c (lit "executables") then Ok (map (fun x => fst (check_exec which x)) s) else pip_each uw lower freeze s).
  assert (Hg : groups l) by (intros x Hx; destruct (Hl x Hx) as (k & c & sub & E & _); eauto).
  assert (Hh : forall x, In x l -> python_handlers which uw lower (Some freeze) (label x) = Some (on_category (label x) (F (label x)))).
  { intros x Hx. destruct (Hl x Hx) as (k & c & sub & -> & Hc). cbn [label].
    destruct Hc as [<-|[<-|[]]]; reflexivity. }
  apply (check_met (python_handlers which uw lower (Some freeze)) F
    (fun c n => if eqb c (lit "executables") then which n = true else pip_found uw lower freeze n = Ok true) name l l' b Hg Hn Hh).
  intros k c sub sub' Hi Ef. unfold F in Ef. destruct (eqb c (lit "executables")).
  - injection Ef as <-. apply available_exec. intros x. apply (Hf k c sub x Hi).
  - apply pip_each_eq in Ef. subst sub'. rewrite available_answered.
    apply fresh_met.
    + intros n a Hi'. rewrite leaves_group in Hi'. apply in_flat_map in Hi' as (x & Hx & Hi'). exact (Hf k c sub x Hi Hx n a Hi').
    + intros n. unfold pip_answer. destruct (pip_found uw lower freeze n) as [[|]|]; split; congruence.
Qed.
(** Lists without a handler are refused. *)
Theorem C49_missing_handler :
  forall (which : str -> bool) (name : str) (k : kind) (c : str) (sub : list dep),
    c <> lit "executables" -> c <> lit "packages" ->
    check (base_handlers which) name [Group k c sub] = Raise OtherError.
Proof.
  intros which name k c sub H1 H2. unfold check. cbn [categories flat_map app run_checks].
  unfold base_handlers. rewrite (proj2 (eqb_neq c _) H1), (proj2 (eqb_neq c _) H2). reflexivity.
Qed.
(** Finding: of two lists of the same category the second is not checked. *)
Theorem C49_twice_refuted :
  ~ (forall (which : str -> bool) (name : str) (k : kind) (s1 s2 : list dep),
       (forall x, In x (s1 ++ s2) -> fresh x) ->
       exists l' b, check (base_handlers which) name [Group k (lit "executables") s1; Group k (lit "executables") s2] = Ok (l', b) /\
        (b = Some true <-> met (fun n _ => which n = true) (Group k (lit "executables") s1) /\ met (fun n _ => which n = true) (Group k (lit "executables") s2))).
Proof.
  intros H. destruct (H (fun _ => true) [] KAll [Dep (lit "a") None] [Dep (lit "b") None]) as (l' & b & E & Hb).
  - intros x [<-|[<-|[]]] n a [[= <- <-]|[]]; reflexivity.
  - vm_compute in E. injection E as <- <-. assert (F : Some false = Some true); [|discriminate F]. apply Hb.
    split; constructor; intros x [<-|[]]; constructor; reflexivity.
Qed.

Lemma startswith_name uw n w p : (forall c, In c p -> name_char uw c = true) ->
  startswith (n ++ lit "==" ++ w) p = true -> startswith n p = true.
Proof.
  revert p. induction n as [|c n IH]; intros p Hp E.
  - destruct p as [|x p]; [reflexivity|]. exfalso. apply startswith_iff in E as [r E]. injection E as <- _.
    discriminate (Hp 61%N (or_introl eq_refl)).
  - destruct p as [|x p]; [reflexivity|]. apply startswith_iff in E as [r E]. injection E as <- E.
    assert (Hs : startswith n p = true).
    { apply IH; [intros y Hy; apply Hp; right; exact Hy|]. apply startswith_iff. exists r. exact E. }
    apply startswith_iff in Hs as [r' ->]. apply startswith_iff. exists r'. reflexivity.
Qed.
(** A package with a version is found exactly if it is installed with a version that compares,
    if no other package has a name that starts like it, and versions have as many numbers. *)
Theorem C49_pip_partial :
  forall (uw : char -> bool) (lower : str -> str) (freeze : list str) (name sp sp' v : str) (o : cmp) (ns : list N),
    package_name uw name -> package_name uw (lower name) -> version v ns -> (forall c, In c (sp ++ sp') -> is_space c = true) ->
    (forall i, In i freeze -> exists n w iv, i = n ++ lit "==" ++ w /\ package_name uw n /\ version w iv /\ length iv = length ns /\
       (startswith n (lower name) = true -> n = lower name)) ->
    (forall w w', In (lower name ++ lit "==" ++ w) freeze -> In (lower name ++ lit "==" ++ w') freeze -> w = w') ->
    exists b, pip_found uw lower freeze (name ++ sp ++ operator_text o ++ sp' ++ v) = Ok b /\
      (b = true <-> exists w iv, In (lower name ++ lit "==" ++ w) freeze /\ version w iv /\ version_holds o iv ns).
Proof.
  intros uw lower freeze name sp sp' v o ns Hn Hlow Hv Hsp Hfr Huni.
  unfold pip_found. rewrite (name_and_version_eq uw name sp o sp' v ns Hn Hv Hsp). cbn [bind].
  destruct (filter (fun i => startswith i (lower name)) freeze) as [|i r] eqn:Ef.
  - exists false. split; [reflexivity|]. split; [discriminate|]. intros (w & iv & Hi & _).
    assert (Hx : In (lower name ++ lit "==" ++ w) []); [|destruct Hx].
    rewrite <- Ef. apply filter_In. split; [exact Hi|]. apply startswith_iff. eexists. reflexivity.
  - assert (Hi : In i freeze /\ startswith i (lower name) = true).
    { apply filter_In with (f := fun i => startswith i (lower name)). rewrite Ef. left. reflexivity. }
    destruct Hi as [Hi Hs]. destruct (Hfr i Hi) as (n & w & iv & Ei & Hpn & Hw & Hl & Hsame).
    rewrite Ei in Hs. apply (startswith_name uw) in Hs; [|apply (name_chars uw _ Hlow)]. specialize (Hsame Hs).
    assert (Eq : name_and_version uw i = Ok (Some (n, Some CEq, Some iv))).
    { rewrite Ei. apply (name_and_version_eq uw n [] CEq [] w iv Hpn Hw). intros c []. }
    rewrite Eq. cbn [bind]. exists (compares o iv ns). split; [destruct o; reflexivity|].
    rewrite compares_holds by exact Hl. subst n. rewrite Ei in Hi. split.
    + intros H. exists w, iv. auto.
    + intros (w2 & iv2 & Hi2 & Hw2 & Hh). rewrite (Huni w2 w Hi2 Hi) in Hw2.
      assert (iv2 = iv); [|subst; exact Hh].
      destruct (version_parse w iv Hw) as (_ & _ & E1). destruct (version_parse w iv2 Hw2) as (_ & _ & E2). congruence.
Qed.
(** Without a version, any version will do. *)
Theorem C49_pip_any :
  forall (uw : char -> bool) (lower : str -> str) (freeze : list str) (name : str),
    package_name uw name -> package_name uw (lower name) ->
    (forall i, In i freeze -> exists n w iv, i = n ++ lit "==" ++ w /\ package_name uw n /\ version w iv /\
       (startswith n (lower name) = true -> n = lower name)) ->
    exists b, pip_found uw lower freeze name = Ok b /\
      (b = true <-> exists w, In (lower name ++ lit "==" ++ w) freeze).
Proof.
  intros uw lower freeze name Hn Hlow Hfr.
  unfold pip_found. rewrite (name_only uw name Hn). cbn [bind].
  destruct (filter (fun i => startswith i (lower name)) freeze) as [|i r] eqn:Ef.
  - exists false. split; [reflexivity|]. split; [discriminate|]. intros (w & Hi).
    assert (Hx : In (lower name ++ lit "==" ++ w) []); [|destruct Hx].
    rewrite <- Ef. apply filter_In. split; [exact Hi|]. apply startswith_iff. eexists. reflexivity.
  - assert (Hi : In i freeze /\ startswith i (lower name) = true).
    { apply filter_In with (f := fun i => startswith i (lower name)). rewrite Ef. left. reflexivity. }
    destruct Hi as [Hi Hs]. destruct (Hfr i Hi) as (n & w & iv & Ei & Hpn & Hw & Hsame).
    rewrite Ei in Hs. apply (startswith_name uw) in Hs; [|apply (name_chars uw _ Hlow)]. specialize (Hsame Hs).
    assert (Eq : name_and_version uw i = Ok (Some (n, Some CEq, Some iv))).
    { rewrite Ei. apply (name_and_version_eq uw n [] CEq [] w iv Hpn Hw). intros c []. }
    rewrite Eq. cbn [bind]. exists true. split; [reflexivity|]. split; [|reflexivity]. intros _.
    exists w. subst n. rewrite Ei in Hi. exact Hi.
Qed.
(** Finding: a package is found although only one with a longer name is installed. *)
Theorem C49_pip_prefix_refuted :
  ~ (forall (uw : char -> bool) (freeze : list str) (name : str), package_name uw name ->
      pip_found uw (fun x => x) freeze name = Ok true -> exists w, In (name ++ lit "==" ++ w) freeze).
Proof.
  intros H. destruct (H (fun _ => false) [lit "click-plugins==8.1"] (lit "click")) as (w & [E|[]]).
  - split; [discriminate|]. intros c Hc. left. unfold is_word. revert c Hc. apply Forall_forall. repeat constructor.
  - vm_compute. reflexivity.
  - discriminate E.
Qed.
(** Finding: a version of the form 6.1 is not at least 6.1.0. *)
Theorem C49_pip_version_refuted :
  ~ (forall (o : cmp) (a b : list N), version_holds o a b -> compares o a b = true).
Proof.
  intros H. assert (E : compares CGe [6; 1]%N [6; 1; 0]%N = true); [|discriminate E]. apply H. right.
  intros [|[|[|[|i]]]]; reflexivity.
Qed.
(** Finding: an installed package with a version of another form is an error. *)
Theorem C49_pip_error_refuted :
  ~ (forall (uw : char -> bool) (lower : str -> str) (freeze : list str) (name : str),
      package_name uw name -> exists b, pip_found uw lower freeze name = Ok b).
Proof.
  intros H. destruct (H (fun _ => false) (fun x => x) [lit "pytz==2018.1.post1"] (lit "pytz")) as [b E].
  - split; [discriminate|]. intros c Hc. left. unfold is_word. revert c Hc. apply Forall_forall. repeat constructor.
  - vm_compute in E. discriminate E.
Qed.
(** Finding: packages that are not found remain without an answer. *)
Theorem C49_pip_unknown_refuted :
  ~ (forall (which : str -> bool) (uw : char -> bool) (lower : str -> str) (freeze : list str) (name : str) (l l' : list dep) (b : option bool),
      check (python_handlers which uw lower (Some freeze)) name l = Ok (l', b) ->
      forall d n a, In d l' -> In (n, a) (leaves d) -> a <> None).
Proof.
  intros H. assert (E : check (python_handlers (fun _ => true) (fun _ => false) (fun x => x) (Some [])) []
    [Group KAll (lit "packages") [Dep (lit "lxml") None]] = Ok ([Group KAll (lit "packages") [Dep (lit "lxml") None]], Some false))
    by (vm_compute; reflexivity).
  apply (H _ _ _ _ _ _ _ _ E (Group KAll (lit "packages") [Dep (lit "lxml") None]) (lit "lxml") None); [left; reflexivity|left; reflexivity|reflexivity].
Qed.

(** The report has a line for each item, with its level, name and status. *)
Fixpoint known (d : dep) : bool := match d with Dep _ _ => true | Group KPlain _ _ => false | Group _ _ l => forallb known l end.
Theorem C49_report :
  forall (d : dep) (required : bool) (level : nat), known d = true ->
    Forall2 line_for (report required level d) (marked required level d).
Proof.
  assert (St : forall d, (exists b, available d = Some b) \/ (exists n, d = Dep n None)).
  { intros [n [b|]|k c l]; [left; exists b; reflexivity|right; exists n; reflexivity|]. left. destruct k; eexists; reflexivity. }
  assert (Ln : forall required level d, line_for (level, label d, status_of required (available d)) (level, required, d)).
  { intros required level d. cbn [line_for]. split; [reflexivity|]. split; [reflexivity|].
    destruct (St d) as [[[|] E]|[n ->]].
    - rewrite E. cbn [status_of]. apply available_met, E.
    - rewrite E. cbn [status_of]. assert (~ met (fun _ a => a = Some true) d).
      { intros Hm. apply available_met in Hm. congruence. }
      destruct required; auto.
    - cbn. eauto. }
  assert (Fm : forall (f : dep -> list (nat * str * status)) g l, Forall (fun x => Forall2 line_for (f x) (g x)) l ->
            Forall2 line_for (flat_map f l) (flat_map g l)).
  { intros f g l H. induction H as [|x l Hx _ IH]; [constructor|]. cbn [flat_map]. apply Forall2_app; assumption. }
  induction d as [n a|k c l IH] using dep_rect'; intros required level Hk.
  - constructor; [|constructor]. exact (Ln required level (Dep n a)).
  - assert (Hkl : k <> KPlain -> forall x, In x l -> known x = true).
    { intros Hkn. destruct k; try congruence; cbn [known] in Hk; rewrite forallb_forall in Hk; exact Hk. }
    rewrite Forall_forall in IH.
    destruct k; [..|discriminate Hk]; cbn [report marked];
      (constructor; [exact (Ln required level (Group _ c l))|]; apply Fm, Forall_forall; intros x Hx; apply IH; [exact Hx|];
       apply Hkl; [discriminate|exact Hx]).
Qed.
(** Finding: the report has failures of what is not needed. *)
Theorem C49_report_refuted :
  ~ (forall d level name, In (level, name, Fail) (report true 1 d) -> available d <> Some true).
Proof.
  intros H. apply (H (Group KOptional (lit "images") [Group KAll (lit "executables") [Dep (lit "asy") (Some false)]]) 3 (lit "asy")).
  - right. right. left. reflexivity.
  - reflexivity.
Qed.

Example C49_ex :
  let which n := mem n [lit "xelatex"; lit "kpsewhich"] in
  let deps := [Group KAll (lit "executables") [Group KAny (lit "compilers") [Dep (lit "pdflatex") None; Dep (lit "xelatex") None];
                                              Group KAny (lit "package_managers") [Dep (lit "kpsewhich") None]];
               Group KAll (lit "packages") [Dep (lit "bm") None];
               Group KOptional (lit "fonts") [Dep (lit "ecrm1200") None]] in
  check (pdf_handlers which (fun f => eqb f (lit "bm.sty"))) (lit "pdf") deps =
    Ok ([Group KAll (lit "executables") [Group KAny (lit "compilers") [Dep (lit "pdflatex") (Some false); Dep (lit "xelatex") (Some true)];
                                              Group KAny (lit "package_managers") [Dep (lit "kpsewhich") (Some true)]];
               Group KAll (lit "packages") [Dep (lit "bm") (Some true)];
               Group KOptional (lit "fonts") [Dep (lit "ecrm1200") (Some false)]], Some true) /\
  (forall x, In x deps -> exists k c sub, x = Group k c sub /\ In c [lit "executables"; lit "packages"; lit "fonts"; lit "classes"]) /\
  NoDup (map label deps) /\ fresh_lists deps.
Proof.
  split; [vm_compute; reflexivity|]. split; [|split].
  - intros x [<-|[<-|[<-|[]]]]; eexists _, _, _; (split; [reflexivity|]); [left|right; left|right; right; left]; reflexivity.
  - repeat (apply NoDup_cons; [cbn; intuition discriminate|]). constructor.
  - intros k c sub x [[= <- <- <-]|[[= <- <- <-]|[[= <- <- <-]|[]]]] Hx n a Hi.
    + destruct Hx as [<-|[<-|[]]]; cbn in Hi; intuition congruence.
    + destruct Hx as [<-|[]]; cbn in Hi; intuition congruence.
    + destruct Hx as [<-|[]]; cbn in Hi; intuition congruence.
Qed.
Example C49_pip_ex :
  let uw := fun _ : char => false in let freeze := [lit "lxml==4.9.1"; lit "regex==2020.1.3"] in
  pip_found uw (fun x => x) freeze (lit "lxml >= 4.3.0") = Ok true /\ pip_found uw (fun x => x) freeze (lit "regex>2020.1.3") = Ok false /\
  version (lit "4.9.1") [4; 9; 1]%N /\ package_name uw (lit "lxml").
Proof.
  split; [vm_compute; reflexivity|]. split; [vm_compute; reflexivity|]. split.
  - split; [discriminate|]. exists [[52]; [57]; [49]]%N. split; [|reflexivity].
    constructor; [apply (num_one 52); split; discriminate|]. constructor; [apply (num_one 57); split; discriminate|].
    constructor; [apply (num_one 49); split; discriminate|]. constructor.
  - split; [discriminate|]. intros c Hc. left. revert c Hc. apply Forall_forall. repeat constructor.
Qed.
