(** C46, C47: verbatim text, commands and elements. *)
From Coq Require Import List Bool Arith Lia NArith.
From Verif.Base Require Import Str StrFacts PyText Dict DictFacts Result.
From Verif.Model Require Import Attributes StringUtils Formats.
From Verif.Spec Require Import Attributes Formats.
From Verif.Proof Require Import Attributes Formats.
From Verif.Props Require Import Attributes.
Import ListNotations.

(** * C46 *)

(** A text on one line that lacks one of the three delimiters is read as it is. *)
Theorem C46_verb_partial : forall c : str,
  ~ In 10%N c -> (exists d, In d [124; 33; 94]%N /\ ~ In d c) -> reads_verb (tex_verb c) c.
Proof.
  intros c Hn (d & Hd & Hdc). unfold tex_verb.
  destruct (mem 124%N c) eqn:E1; cbn [negb].
  - destruct (mem 33%N c) eqn:E2; cbn [negb].
    + destruct (mem 94%N c) eqn:E3; cbn [negb].
      * exfalso. apply mem_In in E1, E2, E3. destruct Hd as [<-|[<-|[<-|[]]]]; contradiction.
      * apply mem_not_In in E3. exists 94%N. split; [repeat split; discriminate|]. split; [reflexivity|]. auto.
    + apply mem_not_In in E2. exists 33%N. split; [repeat split; discriminate|]. split; [reflexivity|]. auto.
  - apply mem_not_In in E1. exists 124%N. split; [repeat split; discriminate|]. split; [reflexivity|]. auto.
Qed.

(** Finding: a text with all three delimiters is not verbatim at all. *)
Theorem C46_verb_refuted : ~ (forall c : str, ~ In 10%N c -> reads_verb (tex_verb c) c).
Proof.
  intros H. destruct (H (lit "a | b ! c ^ d")) as (d & _ & E & _).
  - apply mem_not_In. vm_compute. reflexivity.
  - discriminate E.
Qed.
(** Finding: neither is a text on several lines. *)
Theorem C46_lines_refuted : ~ (forall c : str, ~ In 124%N c -> reads_verb (tex_verb c) c).
Proof.
  intros H. destruct (H [97; 10; 98]%N) as (d & _ & _ & _ & Hn).
  - apply mem_not_In. reflexivity.
  - apply Hn. right. left. reflexivity.
Qed.

(** The text of a verbatim tag with this name is read back, with newlines at both
    ends, if it does not contain the end of the environment. *)
Theorem C46_block_partial : forall c : str,
  contains c (lit "\end{verbatim}") = false ->
  exists out p q, verb_tex (lit "verbatim") c = Ok out /\ reads_verbatim out (p ++ c ++ q) /\
    (p = [] \/ p = [10%N]) /\ (q = [] \/ q = [10%N]) /\
    startswith (p ++ c ++ q) [10%N] = true /\ endswith (p ++ c ++ q) [10%N] = true.
Proof.
  intros c Hc.
  set (c1 := if startswith c [10%N] then c else 10%N :: c).
  set (c2 := if endswith c1 [10%N] then c1 else c1 ++ [10%N]).
  assert (H1 : exists p, c1 = p ++ c /\ (p = [] \/ p = [10%N]) /\ startswith c1 [10%N] = true).
  { unfold c1. destruct (startswith c [10%N]) eqn:E.
    - exists []. auto.
    - exists [10%N]. split; [reflexivity|]. split; [auto|]. destruct c; reflexivity. }
  destruct H1 as (p & Ep & Hp & Sp).
  assert (H2 : exists q, c2 = c1 ++ q /\ (q = [] \/ q = [10%N]) /\ endswith c2 [10%N] = true).
  { unfold c2. destruct (endswith c1 [10%N]) eqn:E.
    - exists []. rewrite app_nil_r. auto.
    - exists [10%N]. split; [reflexivity|]. split; [auto|]. apply endswith_iff. exists c1. reflexivity. }
  destruct H2 as (q & Eq & Hq & Sq).
  assert (E2 : c2 = p ++ c ++ q) by (rewrite Eq, Ep, <- app_assoc; reflexivity).
  exists (10%N :: (lit "\begin{verbatim}" ++ c2 ++ lit "\end{verbatim}") ++ [10%N]), p, q.
  split; [reflexivity|]. split; [|split; [exact Hp|split; [exact Hq|]]].
  - exists [10%N], (c2 ++ lit "\end{verbatim}" ++ [10%N]). split.
    + cbn [app]. f_equal. rewrite <- !app_assoc. reflexivity.
    + rewrite <- E2. apply first_end; [apply mem_not_In; reflexivity|].
      change (contains c2 (lit "\end{verbatim" ++ [125%N]) <> true).
      change (contains c (lit "\end{verbatim" ++ [125%N]) = false) in Hc.
      rewrite E2, app_assoc. intros Hin.
      assert (G : contains (p ++ c) (lit "\end{verbatim" ++ [125%N]) = true).
      { destruct Hq as [-> | ->]; [rewrite app_nil_r in Hin; exact Hin|]. apply contains_snoc in Hin; [exact Hin|discriminate]. }
      destruct Hp as [-> | ->]; [cbn [app] in G; congruence|].
      apply (contains_cons c (lit "end{verbatim" ++ [125%N]) 10%N 92%N) in G; [|discriminate].
      change (contains c (lit "\end{verbatim" ++ [125%N]) = true) in G. congruence.
  - rewrite <- E2. split; [|exact Sq]. rewrite Eq. apply startswith_iff in Sp as [r ->]. apply startswith_iff.
    exists (r ++ q). rewrite app_assoc. reflexivity.
Qed.
(** Finding: the end of the environment in the text ends it. *)
Theorem C46_block_refuted :
  ~ (forall c out, verb_tex (lit "verbatim") c = Ok out -> exists p q, reads_verbatim out (p ++ c ++ q)).
Proof.
  intros H. destruct (H (lit "\end{verbatim} a") _ eq_refl) as (p & q & pre & y & E & post & E1 & E2).
  change (tex_env_arguments) with tex_env_arguments in E.
  specialize (E2 p (lit " a" ++ q ++ lit "\end{verbatim}" ++ post)). rewrite E1 in E2.
  assert (length (p ++ lit "\end{verbatim} a" ++ q) <= length p); [|rewrite !app_length in *; cbn in *; lia].
  apply E2. rewrite <- !app_assoc. reflexivity.
Qed.

Example C46_ex : let c := lit "if a | b: x!" in
  tex_verb c = lit "\verb^if a | b: x!^" /\ ~ In 10%N c /\ (exists d, In d [124; 33; 94]%N /\ ~ In d c) /\
  contains c (lit "\end{verbatim}") = false.
Proof.
  split; [reflexivity|]. split; [apply mem_not_In; reflexivity|]. split; [|reflexivity].
  exists 94%N. split; [right; right; left; reflexivity|apply mem_not_In; reflexivity].
Qed.

(** * C47 *)

(** Commands and environments that are in neither table are refused. *)
Theorem C47_tex_refused :
  forall (args opts : table) (name : str) (d : attrs) (c : option str) (x : str) (m : bool) (i : option nat),
    ~ permitted args opts name ->
    tex_cmd args opts name d c i = Raise OtherError /\ tex_env args opts name d x m i = Raise OtherError.
Proof.
  intros args opts name d c x m i Hp. rewrite <- has_permitted in Hp.
  unfold tex_cmd, tex_env, tex_params.
  destruct (has name args); [exfalso; apply Hp; reflexivity|]. destruct (has name opts); [exfalso; apply Hp; reflexivity|].
  split; reflexivity.
Qed.

Lemma tex_params_shape args opts sort name d p : wf d -> tex_params args opts sort name d = Ok p ->
  permitted args opts name /\ exists rs os,
    match lookup name args with Some r => Forall2 (answers d (Some (lit "tex"))) r rs | None => rs = [] end /\
    match lookup name opts with
    | Some r => filter_attrs d (Some r) (Some (lit "tex")) sort true = Ok os
    | None => os = [] end /\
    p = in_braces rs ++ in_brackets os.
Proof.
  intros Hw. unfold tex_params. destruct (negb (has name args) && negb (has name opts)) eqn:En; [discriminate|].
  assert (Hp : permitted args opts name).
  { apply has_permitted. destruct (has name args); [reflexivity|]. destruct (has name opts); [reflexivity|discriminate En]. }
  intros E. split; [exact Hp|].
  assert (Et : forall f, tex_arguments f = in_braces f).
  { intros f. unfold tex_arguments, in_braces. f_equal. apply map_ext. exact tex_arg_text. }
  assert (Eo : forall f, tex_optionals f = in_brackets f).
  { intros [|e f]; [reflexivity|]. unfold tex_optionals, in_brackets.
    rewrite (map_ext tex_opt opt_text) by apply tex_opt_text. reflexivity. }
  destruct (lookup name args) as [r|] eqn:Er.
  - destruct (filter_attrs d (Some r) (Some (lit "tex")) true true) as [f|] eqn:Ef; [|discriminate]. cbn [bind] in E.
    destruct (Nat.eqb_spec (length f) (length r)) as [El|]; [|discriminate]. cbn [bind] in E.
    exists f. rewrite <- Et.
    assert (HF : Forall2 (answers d (Some (lit "tex"))) r f).
    { apply filter_exact; [exact Hw|apply mem_not_In; reflexivity|exact Ef|exact El]. }
    destruct (lookup name opts) as [r'|].
    + destruct (filter_attrs d (Some r') (Some (lit "tex")) sort true) as [f'|] eqn:Ef'; [|discriminate]. cbn [bind] in E.
      injection E as <-. exists f'. rewrite <- Eo. auto.
    + cbn [bind] in E. injection E as <-. exists []. auto.
  - cbn [bind] in E. exists [].
    destruct (lookup name opts) as [r'|].
    + destruct (filter_attrs d (Some r') (Some (lit "tex")) sort true) as [f'|] eqn:Ef'; [|discriminate]. cbn [bind] in E.
      injection E as <-. exists f'. rewrite <- Eo. auto.
    + cbn [bind] in E. injection E as <-. exists []. auto.
Qed.
Lemma options_answer d r sort os : wf d -> filter_attrs d (Some r) (Some (lit "tex")) sort true = Ok os ->
  forall e, In e os -> exists a, In a r /\ answers d (Some (lit "tex")) a e.
Proof.
  intros Hw E [k v] Hi.
  destruct (C02_filter_sound d r (lit "tex") sort os Hw) as [Hwo Hs]; [apply mem_not_In; reflexivity|exact E|].
  destruct (Hs k v (In_lookup k v os Hwo Hi)) as (k' & a & H1 & H2 & H3 & H4).
  exists a. split; [exact H2|]. exists k'. auto.
Qed.

(** A command is a backslash, its name, all required arguments in the order of the table
    in braces, options from the table in brackets and the content in braces. *)
Theorem C47_cmd :
  forall (args opts : table) (cmd : str) (d : attrs) (content : option str) (out : str),
    wf d -> tex_cmd args opts cmd d content None = Ok out ->
    permitted args opts cmd /\
    exists rs os,
      match lookup cmd args with Some r => Forall2 (answers d (Some (lit "tex"))) r rs | None => rs = [] end /\
      (forall e, In e os -> exists r a, lookup cmd opts = Some r /\ In a r /\ answers d (Some (lit "tex")) a e) /\
      out = [92%N] ++ cmd ++ in_braces rs ++ in_brackets os ++
            match content with Some c => [123%N] ++ c ++ [125%N] | None => [] end.
Proof.
  intros args opts cmd d content out Hw E. unfold tex_cmd in E.
  destruct (tex_params args opts false cmd d) as [p|] eqn:Ep; [|discriminate]. cbn [bind] in E. injection E as <-.
  destruct (tex_params_shape _ _ _ _ _ _ Hw Ep) as (Hp & rs & os & Hr & Ho & ->). split; [exact Hp|].
  exists rs, os. split; [exact Hr|]. split.
  - intros e Hi. destruct (lookup cmd opts) as [r|]; [|subst os; destruct Hi].
    destruct (options_answer _ _ _ _ Hw Ho e Hi) as (a & H1 & H2). exists r, a. auto.
  - cbn [indented]. rewrite <- !app_assoc. destruct content; reflexivity.
Qed.
(** The same for an environment, with its content on own lines. *)
Theorem C47_env :
  forall (args opts : table) (env : str) (d : attrs) (content : str) (m : bool) (out : str),
    wf d -> tex_env args opts env d content m None = Ok out ->
    permitted args opts env /\
    exists rs os p q,
      match lookup env args with Some r => Forall2 (answers d (Some (lit "tex"))) r rs | None => rs = [] end /\
      (forall e, In e os -> exists r a, lookup env opts = Some r /\ In a r /\ answers d (Some (lit "tex")) a e) /\
      (p = [] \/ p = [10%N]) /\ (q = [] \/ q = [10%N]) /\
      startswith (p ++ content ++ q) [10%N] = true /\ endswith (p ++ content ++ q) [10%N] = true /\
      let text := lit "\begin{" ++ env ++ lit "}" ++ in_braces rs ++ in_brackets os ++
                  (if m then lit " %" else []) ++ p ++ content ++ q ++ lit "\end{" ++ env ++ lit "}" in
      out = if m then text else [10%N] ++ text ++ [10%N].
Proof.
  intros args opts env d c m out Hw E. unfold tex_env in E.
  destruct (tex_params args opts true env d) as [p|] eqn:Ep; [|discriminate]. cbn [bind] in E.
  destruct (tex_params_shape _ _ _ _ _ _ Hw Ep) as (Hp & rs & os & Hr & Ho & ->). split; [exact Hp|].
  exists rs, os. cbv zeta in E. apply Ok_inj in E.
  set (c1 := if startswith c [10%N] then c else 10%N :: c) in E.
  set (c2 := if endswith c1 [10%N] then c1 else c1 ++ [10%N]) in E.
  assert (H1 : exists p, c1 = p ++ c /\ (p = [] \/ p = [10%N]) /\ startswith c1 [10%N] = true).
  { unfold c1. destruct (startswith c [10%N]) eqn:Es.
    - exists []. auto.
    - exists [10%N]. split; [reflexivity|]. split; [auto|]. destruct c; reflexivity. }
  destruct H1 as (p & Ec1 & Hpp & Sp).
  assert (H2 : exists q, c2 = c1 ++ q /\ (q = [] \/ q = [10%N]) /\ endswith c2 [10%N] = true).
  { unfold c2. destruct (endswith c1 [10%N]) eqn:Es.
    - exists []. rewrite app_nil_r. auto.
    - exists [10%N]. split; [reflexivity|]. split; [auto|]. apply endswith_iff. exists c1. reflexivity. }
  destruct H2 as (q & Ec2 & Hq & Sq).
  assert (E2 : c2 = p ++ c ++ q) by (rewrite Ec2, Ec1, <- app_assoc; reflexivity).
  exists p, q. split; [exact Hr|]. split; [|split; [exact Hpp|split; [exact Hq|split; [|split]]]].
  - intros e Hi. destruct (lookup env opts) as [r|]; [|subst os; destruct Hi].
    destruct (options_answer _ _ _ _ Hw Ho e Hi) as (a & H1 & H2). exists r, a. auto.
  - rewrite <- E2, Ec2. apply startswith_iff in Sp as [r ->]. apply startswith_iff. exists (r ++ q). rewrite app_assoc. reflexivity.
  - rewrite <- E2. exact Sq.
  - rewrite E2 in E. cbv zeta. subst out. cbn [indented].
    assert (G : lit "\begin" ++ lit "{" ++ env ++ lit "}" ++ (in_braces rs ++ in_brackets os) ++
       (if m then lit " %" else []) ++ (p ++ c ++ q) ++ lit "\end{" ++ env ++ lit "}" =
       lit "\begin{" ++ env ++ lit "}" ++ in_braces rs ++ in_brackets os ++
                  (if m then lit " %" else []) ++ p ++ c ++ q ++ lit "\end{" ++ env ++ lit "}").
    { rewrite <- !app_assoc. reflexivity. }
    destruct m; [exact G|]. exact (f_equal (fun x => [10%N] ++ x ++ [10%N]) G).
Qed.
(** Commands and environments without attributes are always accepted. *)
Theorem C47_tex_plain :
  forall (args opts : table) (name : str) (d : attrs) (c : option str) (x : str) (m : bool) (i : option nat),
    lookup name args = Some [] -> lookup name opts = None ->
    (exists out, tex_cmd args opts name d c i = Ok out) /\ (exists out, tex_env args opts name d x m i = Ok out).
Proof.
  intros args opts name d c x m i E1 E2. unfold tex_cmd, tex_env, tex_params, has. rewrite E1, E2.
  replace (filter_attrs d (Some []) (Some (lit "tex")) true true) with (Ok ([] : attrs)) by reflexivity.
  cbn [negb andb bind length Nat.eqb]. split; eexists; reflexivity.
Qed.
(** All given options of a command are in it. *)
Theorem C47_cmd_options :
  forall (args opts : table) (cmd : str) (d : attrs) (content : option str) (ks : list str),
    wf d -> lookup cmd args = Some [] -> lookup cmd opts = Some (map RKey ks) ->
    Forall plain ks -> ~ In (lit "self") ks -> NoDup ks ->
    tex_cmd args opts cmd d content None =
    Ok ([92%N] ++ cmd ++ in_brackets (expected d (Some (lit "tex")) (default_order d ks)) ++
        match content with Some c => [123%N] ++ c ++ [125%N] | None => [] end).
Proof.
  intros args opts cmd d content ks Hw E1 E2 Hp Hs Hd. unfold tex_cmd, tex_params, has. rewrite E1, E2.
  replace (filter_attrs d (Some []) (Some (lit "tex")) true true) with (Ok ([] : attrs)) by reflexivity.
  cbn [negb andb bind length Nat.eqb].
  rewrite C02_filter_by_names; [|exact Hw|exact Hp|intros u [= <-]; right; right; left; reflexivity|exact Hs].
  cbn [bind]. replace (ListUtils.uniq ks) with ks.
  2:{ symmetry. unfold ListUtils.uniq, ListUtils.uniq_by. apply Verif.Proof.ListUtils.uv_id; [rewrite map_id; exact Hd|intros ? _ []]. }
  set (os := expected d (Some (lit "tex")) (default_order d ks)).
  assert (Eo : tex_optionals os = in_brackets os).
  { destruct os as [|e f]; [reflexivity|]. unfold tex_optionals, in_brackets.
    rewrite (map_ext tex_opt opt_text) by apply tex_opt_text. reflexivity. }
  rewrite Eo. destruct content; reflexivity.
Qed.
(** Indenting adds spaces before each line of the same text. *)
Theorem C47_indent :
  forall (args opts : table) (name : str) (d : attrs) (c : option str) (x : str) (n : nat),
    tex_cmd args opts name d c (Some n) =
      (do out <- tex_cmd args opts name d c None ; Ok (join [10%N] (map (fun l => repeat 32%N n ++ l) (splitlines out)))) /\
    tex_env args opts name d x true (Some n) =
      (do out <- tex_env args opts name d x true None ; Ok (join [10%N] (map (fun l => repeat 32%N n ++ l) (splitlines out)))).
Proof.
  intros args opts name d c x n. unfold tex_cmd, tex_env. split.
  - destruct (tex_params args opts false name d); reflexivity.
  - destruct (tex_params args opts true name d); reflexivity.
Qed.

(** An element has its name if it is permitted and is a span with its name as the class
    otherwise.  It has all attributes required for it and those permitted for it that are given. *)
Theorem C47_html :
  forall (args opts : table) (name : str) (d : attrs) (t : option str) (n : str) (e : attrs),
    named args -> named opts -> lookup (lit "span") args = None -> In (lit "span") (map fst opts) ->
    wf d -> (forall u, t = Some u -> known_target u) ->
    xhtml_tag args opts name d t = Ok (n, e) ->
    (permitted args opts name -> n = name) /\ (~ permitted args opts name -> n = lit "span") /\ permitted args opts n /\
    (forall k, In k (names args n) -> lookup k e <> None) /\
    (forall k v, lookup k e = Some v <->
       (In k (names args n ++ names opts n) /\ pick d t k = Some v) \/
       (~ permitted args opts name /\ k = lit "class" /\ v = VStr name /\
        ~ (In k (names args n ++ names opts n) /\ pick d t k <> None))) /\
    (forall k v, lookup k e = Some v -> exists x, v = VStr x).
Proof.
  intros args opts name d t n e Ha Ho Hs Hso Hw Ht E.
  destruct (xhtml_tag_eq args opts name d t Ha Ho Hs Hw Ht) as (fr & fo & Wr & Wo & Lr & Lo & Hbad & Hgood).
  set (al := has name args || has name opts) in *. set (n0 := if al then name else lit "span") in *.
  assert (Hall : forall k, In k (names args n0) -> pick d t k <> None).
  { intros k Hk Hp. rewrite Hbad in E by eauto. discriminate E. }
  rewrite (Hgood Hall) in E.
  destruct (set_all [] fr) as [e1|] eqn:S1; [|discriminate]. cbn [bind] in E.
  destruct (set_all e1 fo) as [e2|] eqn:S2; [|discriminate]. cbn [bind] in E.
  pose (other := if al || has (lit "class") fr || has (lit "class") fo then [] else [(lit "class", VStr name)]).
  change ((do x <- set_all e2 other ; Ok (n0, x)) = Ok (n, e)) in E.
  destruct (set_all e2 other) as [e3|] eqn:S3; [|discriminate]. cbn [bind] in E.
  assert (En : n0 = n) by congruence. assert (Ee : e3 = e) by congruence. clear E.
  assert (Wx : wf other). { unfold other. destruct (al || has (lit "class") fr || has (lit "class") fo); [constructor|]. apply NoDup_cons; [intros []|constructor]. }
  destruct (set_all_lookup fr [] e1 Wr S1) as [K1 V1].
  destruct (set_all_lookup fo e1 e2 Wo S2) as [K2 V2].
  destruct (set_all_lookup other e2 e3 Wx S3) as [K3 V3].
  rewrite <- En, <- Ee. clear n En e Ee.
  assert (Hal : al = true <-> permitted args opts name) by apply has_permitted.
  assert (Lx : forall k v, lookup k other = Some v <->
     ~ permitted args opts name /\ k = lit "class" /\ v = VStr name /\ lookup k fr = None /\ lookup k fo = None).
  { intros k v. unfold other. split.
    - destruct (al || has (lit "class") fr || has (lit "class") fo) eqn:Eb; [discriminate|].
      apply orb_false_iff in Eb as [Eb E3]. apply orb_false_iff in Eb as [E1 E2].
      change (lookup k [(lit "class", VStr name)]) with (if eqb k (lit "class") then Some (VStr name) else None).
      destruct (eqb_spec k (lit "class")) as [->|]; [|discriminate]. intros [= <-].
      unfold has in E2, E3. destruct (lookup (lit "class") fr); [discriminate|]. destruct (lookup (lit "class") fo); [discriminate|].
      rewrite <- Hal, E1. auto using diff_false_true.
    - intros (Hp & -> & -> & E1 & E2). rewrite <- Hal in Hp. unfold has. rewrite E1, E2.
      destruct al; [exfalso; apply Hp; reflexivity|]. reflexivity. }
  assert (Hcl : forall k, lookup k other <> None -> lookup k fr = None /\ lookup k fo = None).
  { intros k Hk. destruct (lookup k other) as [v|] eqn:El; [|congruence]. apply Lx in El. tauto. }
  assert (B : forall k, mem k (names args n0) || mem k (names opts n0) = true <-> In k (names args n0 ++ names opts n0)).
  { intros k. rewrite orb_true_iff, in_app_iff, !mem_In. reflexivity. }
  assert (Base : forall k, (match lookup k fo with Some v => Some v | None => lookup k fr end)
                   = if mem k (names args n0) || mem k (names opts n0) then pick d t k else None).
  { intros k. rewrite Lr, Lo. destruct (mem k (names opts n0)), (mem k (names args n0)); cbn [orb]; destruct (pick d t k); reflexivity. }
  assert (Le : forall k, lookup k e3 = match lookup k other with Some v => Some v | None =>
                 if mem k (names args n0) || mem k (names opts n0) then pick d t k else None end).
  { intros k. rewrite K3, K2, K1, <- Base. destruct (lookup k other); [reflexivity|]. destruct (lookup k fo); [reflexivity|].
    destruct (lookup k fr); reflexivity. }
  split; [|split; [|split; [|split; [|split]]]].
  - intros Hp. unfold n0. rewrite (proj2 Hal Hp). reflexivity.
  - intros Hp. unfold n0. destruct al; [|reflexivity]. exfalso. apply Hp, Hal. reflexivity.
  - unfold n0. destruct al; [apply Hal; reflexivity|right; exact Hso].
  - intros k Hk. rewrite Le. destruct (lookup k other); [discriminate|].
    rewrite (proj2 (B k)); [exact (Hall k Hk)|]. apply in_or_app. left. exact Hk.
  - intros k v. rewrite Le. split.
    + destruct (lookup k other) as [w|] eqn:El.
      * intros [= <-]. right. apply Lx in El as (H1 & H2 & H3 & H4 & H5).
        split; [exact H1|]. split; [exact H2|]. split; [exact H3|]. intros [Hi Hk].
        apply Hk. pose proof (Base k) as Hb. rewrite H4, H5, (proj2 (B k) Hi) in Hb. symmetry. exact Hb.
      * intros Hl. left. destruct (mem k (names args n0) || mem k (names opts n0)) eqn:Em; [|discriminate].
        split; [apply B; exact Em|exact Hl].
    + intros [[Hi Hp]|(H1 & H2 & H3 & H4)].
      * destruct (lookup k other) as [w|] eqn:El; [|rewrite (proj2 (B k) Hi); exact Hp].
        exfalso. destruct (Hcl k) as [F1 F2]; [congruence|]. pose proof (Base k) as Hb.
        rewrite F1, F2, (proj2 (B k) Hi) in Hb. congruence.
      * replace (lookup k other) with (Some v); [reflexivity|]. symmetry. apply Lx.
        split; [exact H1|]. split; [exact H2|]. split; [exact H3|].
        pose proof (Base k) as Hb.
        assert (Hn : (if mem k (names args n0) || mem k (names opts n0) then pick d t k else None) = None).
        { destruct (mem k (names args n0) || mem k (names opts n0)) eqn:Em; [|reflexivity].
          destruct (pick d t k) eqn:Ep; [|reflexivity]. exfalso. apply H4. split; [apply B; exact Em|congruence]. }
        rewrite Hn in Hb. destruct (lookup k fo); [discriminate|]. auto.
  - intros k v. rewrite K3. destruct (lookup k other) as [w|] eqn:El.
    + intros [= <-]. exact (V3 k w (lookup_In _ _ _ El)).
    + rewrite K2. destruct (lookup k fo) as [w|] eqn:El2.
      * intros [= <-]. exact (V2 k w (lookup_In _ _ _ El2)).
      * rewrite K1. destruct (lookup k fr) as [w|] eqn:El3; [|discriminate].
        intros [= <-]. exact (V1 k w (lookup_In _ _ _ El3)).
Qed.
(** An element with a missing required attribute is refused. *)
Theorem C47_html_refused :
  forall (args opts : table) (name : str) (d : attrs) (t : option str) (k : str),
    named args -> named opts -> lookup (lit "span") args = None ->
    wf d -> (forall u, t = Some u -> known_target u) ->
    In k (names args name) -> pick d t k = None ->
    xhtml_tag args opts name d t = Raise OtherError.
Proof.
  intros args opts name d t k Ha Ho Hs Hw Ht Hk Hp.
  destruct (xhtml_tag_eq args opts name d t Ha Ho Hs Hw Ht) as (fr & fo & _ & _ & _ & _ & Hbad & _).
  apply Hbad. exists k. split; [|exact Hp].
  replace (has name args) with true; [exact Hk|]. unfold names in Hk. unfold has.
  destruct (lookup name args); [reflexivity|destruct Hk].
Qed.
(** All others are made, if the values are strings. *)
Theorem C47_html_made :
  forall (args opts : table) (name : str) (d : attrs) (t : option str),
    named args -> named opts -> lookup (lit "span") args = None ->
    wf d -> (forall u, t = Some u -> known_target u) ->
    (forall k, In k (names args name) -> pick d t k <> None) ->
    (forall k v, pick d t k = Some v -> exists x, v = VStr x) ->
    exists n e, xhtml_tag args opts name d t = Ok (n, e).
Proof.
  intros args opts name d t Ha Ho Hs Hw Ht Hall Hv.
  destruct (xhtml_tag_eq args opts name d t Ha Ho Hs Hw Ht) as (fr & fo & Wr & Wo & Lr & Lo & _ & Hgood).
  rewrite Hgood.
  2:{ intros k Hk. destruct (has name args || has name opts); [exact (Hall k Hk)|].
      unfold names in Hk. rewrite Hs in Hk. destruct Hk. }
  destruct (set_all_ok fr []) as [e1 E1].
  { intros k v Hi. apply In_lookup in Hi; [|exact Wr]. rewrite Lr in Hi. destruct (mem k _); [exact (Hv k v Hi)|discriminate]. }
  rewrite E1. cbn [bind]. destruct (set_all_ok fo e1) as [e2 E2].
  { intros k v Hi. apply In_lookup in Hi; [|exact Wo]. rewrite Lo in Hi. destruct (mem k _); [exact (Hv k v Hi)|discriminate]. }
  rewrite E2. cbn [bind].
  destruct (has name args || has name opts || has (lit "class") fr || has (lit "class") fo); cbn [set_all bind]; eauto.
Qed.
(** Finding: an attribute without a value, such as [class], makes the element fail. *)
Theorem C47_html_value_refuted :
  ~ (forall (name : str) (d : attrs) (t : option str), wf d -> (forall u, t = Some u -> known_target u) ->
       (forall k, In k (names xhtml_tag_arguments name) -> pick d t k <> None) ->
       exists n e, xhtml_tag xhtml_tag_arguments xhtml_tag_optionals name d t = Ok (n, e)).
Proof.
  intros H. destruct (H (lit "p") [(lit "class", VPos PStr)] None) as (n & e & E).
  - apply NoDup_cons; [intros []|constructor].
  - discriminate.
  - intros k [].
  - vm_compute in E. discriminate E.
Qed.
(** Finding: [html_tag] never returns. *)
Theorem C47_html_tag_refuted :
  ~ (exists (A : Type) (n : nat) (kwargs : list str) (x : A), html_tag n kwargs = Ok x).
Proof.
  intros (A & n & kw & x & E). revert kw E. induction n as [|n IH]; intros kw E; [discriminate|].
  cbn [html_tag] in E. destruct (mem (lit "method") kw); [discriminate|]. exact (IH _ E).
Qed.

Lemma named_check (tb : table) :
  forallb (fun e => forallb (fun a => match a with RKey k => negb (is_target_specific k) && negb (eqb k (lit "self")) | RPos _ => false end) (snd e)
     && Nat.eqb (length (ListUtils.uniq (names tb (fst e)))) (length (names tb (fst e)))) tb = true -> named tb.
Proof.
  intros H n l El. pose proof (lookup_In _ _ _ El) as Hi. rewrite forallb_forall in H. specialize (H _ Hi).
  cbn [fst snd] in H. apply andb_true_iff in H as [H1 H2]. rewrite forallb_forall in H1. apply Nat.eqb_eq in H2.
  assert (E : l = map RKey (names tb n)).
  { unfold names. rewrite El. clear -H1. induction l as [|a l IH]; [reflexivity|]. cbn [flat_map].
    pose proof (H1 a (or_introl eq_refl)) as Ha. destruct a as [k|p]; [|discriminate]. cbn [app map]. f_equal.
    apply IH. intros b Hb. apply H1. right. exact Hb. }
  assert (G : forall k, In k (names tb n) -> plain k /\ k <> lit "self").
  { intros k Hk. assert (Hl : In (RKey k) l) by (rewrite E; apply in_map; exact Hk).
    specialize (H1 _ Hl). cbn in H1. apply andb_true_iff in H1 as [G1 G2].
    split; [apply its_plain; destruct (is_target_specific k); [discriminate|reflexivity]|].
    intros ->. rewrite eqb_refl in G2. discriminate. }
  split; [exact E|]. split; [apply Forall_forall; intros k Hk; apply G, Hk|]. split.
  - intros Hself. destruct (G _ Hself) as [_ F]. apply F. reflexivity.
  - unfold ListUtils.uniq, ListUtils.uniq_by in H2. apply uv_full in H2. rewrite <- H2. exact (uniq_NoDup (names tb n)).
Qed.
(** The tables of the settings *)
Example C47_settings : named xhtml_tag_arguments /\ named xhtml_tag_optionals /\
  lookup (lit "span") xhtml_tag_arguments = None /\ In (lit "span") (map fst xhtml_tag_optionals).
Proof.
  split; [apply named_check; vm_compute; reflexivity|]. split; [apply named_check; vm_compute; reflexivity|].
  split; [reflexivity|]. apply mem_In. vm_compute. reflexivity.
Qed.
Example C47_ex :
  tex_cmd tex_cmd_arguments tex_cmd_optionals (lit "includegraphics")
    [(lit "height", VStr (lit "2in")); (lit "class", VStr (lit "x")); (lit "width.tex", VStr (lit "4in"))] (Some (lit "a.pdf")) None
    = Ok (lit "\includegraphics[height=2in, width=4in]{a.pdf}") /\
  tex_cmd tex_cmd_arguments tex_cmd_optionals (lit "setcounter")
    [(lit "3", VPos PInt); (lit "section", VPos PStr)] None None = Ok (lit "\setcounter{section}{3}") /\
  tex_cmd tex_cmd_arguments tex_cmd_optionals (lit "textcolor") [] (Some (lit "a")) None = Raise OtherError /\
  tex_cmd tex_cmd_arguments tex_cmd_optionals (lit "write") [] None None = Raise OtherError /\
  tex_env tex_env_arguments tex_env_optionals (lit "figure") [(lit "h", VPos PStr)] (lit "a") true None
    = Ok (lit "\begin{figure}[h] %" ++ [10%N] ++ lit "a" ++ [10%N] ++ lit "\end{figure}") /\
  xhtml_tag xhtml_tag_arguments xhtml_tag_optionals (lit "img")
    [(lit "width", VStr (lit "5")); (lit "alt", VStr (lit "b")); (lit "src", VStr (lit "a.png"))] (Some (lit "html"))
    = Ok (lit "img", [(lit "src", VStr (lit "a.png")); (lit "alt", VStr (lit "b"))]) /\
  xhtml_tag xhtml_tag_arguments xhtml_tag_optionals (lit "img") [] None = Raise OtherError /\
  xhtml_tag xhtml_tag_arguments xhtml_tag_optionals (lit "script") [(lit "src", VStr (lit "a.js")); (lit "id", VStr (lit "b"))] None
    = Ok (lit "span", [(lit "id", VStr (lit "b")); (lit "class", VStr (lit "script"))]).
Proof. vm_compute. repeat split; reflexivity. Qed.
