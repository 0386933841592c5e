(** C59: the values of the header, of the template and of its parents *)
From Coq Require Import String List Bool Arith NArith ZArith Lia Permutation.
From Verif.Base Require Import Str StrFacts Dict DictFacts Result PurePath PyText PyTextFacts.
From Verif.Model Require Import ListUtils StrToDict Context Headers.
From Verif.Spec Require Import Context Headers.
From Verif.Proof Require Import Attributes ListUtils Context Headers.
From Verif.Props Require Context.
Import ListNotations.

(** After the headers are processed, every entry of the context is the entry from before (without its
    header; with the directories of the template at the front of the paths) changed by the values of
    the template and then by the values of the header, so that those of the header come first. *)
Theorem C59_result : forall to_int to_float lower order bases is_dir text templates_in pval,
  (forall l, Permutation (order l) l) -> forall C x h h' d F,
  holds h (VRef (self x)) (TDict d) F ->
  process_headers bases is_dir text templates_in to_int to_float lower order pval C x h = Ok h' ->
  exists keys name l d' F',
    Permutation keys (filter (fun k => match header_text (lookup k d) with Some _ => true | None => false end) (Dict.keys d)) /\
    let header := first_value (rev (map (fun key => header_entries (lookup key d)) keys)) in
    let paths := all_template_paths bases is_dir templates_in (of_str name) in
    let contexts := find_additional_context_filepaths text (rev paths) in
    let template := first_value (rev (map (fun f => snd (load_from_string (read_text text f))) contexts)) in
    template_is (header (lit "template")) (without_header (lookup (lit "template") d)) name /\
    lookup (lit "paths") d = Some (TList l) /\
    holds h' (VRef (self x)) (TDict d') F' /\
    forall k, exists m,
      Entry to_int to_float lower (mem k (replace C)) true
        (if eqb k (lit "paths") then Some (TList (map (fun p => TS (pval p)) paths ++ l)) else without_header (lookup k d))
        (as_tree (template k)) m /\
      Entry to_int to_float lower (mem k (replace C)) true m (as_tree (header k)) (lookup k d').
Proof. intros. eapply process_headers_ok; eassumption. Qed.

Lemma no_header_text t : header_text t = None -> without_header t = t.
Proof. unfold without_header. intros ->. reflexivity. Qed.
Lemma entry_texts to_int to_float lower (rp : bool) o v r :
  Entry to_int to_float lower rp true (as_tree o) (as_tree v) r -> r = as_tree (match v with Some s => Some s | None => o end).
Proof.
  intros H. destruct v as [s|]; cbn [as_tree] in *.
  - destruct o as [s0|]; cbn [as_tree] in *; inversion H as [|rp0 w v0|rp0 o0 v0 r0 Hu|]; subst; [|reflexivity].
    assert (Hu' : Updated to_int to_float lower (TS (SStr s0)) (TS (SStr s)) r0) by (destruct rp; exact Hu).
    inversion Hu' as [| | | | | |o1 v1 r1 Hc]; subst. inversion Hc; subst; [reflexivity|]. exfalso.
    match goal with H : forall s', _ <> _ |- _ => exact (H _ eq_refl) end.
  - inversion H; subst. reflexivity.
Qed.
Lemma first_value_app (a b : list (dict str str)) k : first_value (a ++ b) k = match first_value a k with Some v => Some v | None => first_value b k end.
Proof. induction a as [|d a IH]; [reflexivity|]. cbn [app first_value]. rewrite IH. destruct (lookup k d); reflexivity. Qed.
Lemma first_value_nil {A} (f : A -> dict str str) l k : (forall x, In x l -> f x = nil) -> first_value (map f l) k = None.
Proof. induction l as [|a l IH]; intros H; [reflexivity|]. cbn [map first_value]. rewrite (H a (or_introl eq_refl)). cbn. apply IH. intros y Hy. apply H. right. exact Hy. Qed.
Lemma uniq_id {A} `{EqDec A} (l : list A) : NoDup l -> uniq l = l.
Proof. intros Nd. unfold uniq, uniq_by. apply uv_id; [rewrite map_id; exact Nd|intros x _ []]. Qed.
Lemma flat_map_rev {A B} (f : A -> list B) l : (forall x, length (f x) <= 1) -> flat_map f (rev l) = rev (flat_map f l).
Proof.
  intros Hf. induction l as [|a l IH]; [reflexivity|]. cbn [rev flat_map]. rewrite flat_map_app, IH, rev_app_distr. cbn [flat_map]. rewrite app_nil_r.
  f_equal. specialize (Hf a). destruct (f a) as [|b [|c r]]; [reflexivity|reflexivity|cbn in Hf; lia].
Qed.
Lemma context_file_short text p : length (context_file text p) <= 1.
Proof. unfold context_file. cbn zeta. destruct (is_file text _); [cbn; lia|]. destruct (is_file text _); cbn; lia. Qed.
Lemma context_values text paths k :
  first_value (map (fun f => snd (load_from_string (read_text text f))) (flat_map (context_file text) paths)) k =
  first_value (map (fun p => entries_in (own_context text p)) paths) k.
Proof.
  induction paths as [|p paths IH]; [reflexivity|]. cbn [flat_map map first_value]. rewrite map_app, first_value_app, IH.
  assert (E : forall s, snd (load_from_string s) = entries_in (Some s)).
  { intros s. unfold load_from_string, entries_in. destruct (match_header s) as [[a b]|]; reflexivity. }
  unfold context_file, own_context, is_file. cbn zeta.
  destruct (text (path_join p (of_str (lit "context.txt")))) as [t|] eqn:E1.
  - cbn [map first_value]. unfold read_text. rewrite E1, E. destruct (lookup k (entries_in (Some t))); reflexivity.
  - destruct (text (path_join (path_parent p) (of_str (lit "context.txt")))) as [t|] eqn:E2; [|reflexivity].
    cbn [map first_value]. unfold read_text. rewrite E2, E. destruct (lookup k (entries_in (Some t))); reflexivity.
Qed.

(** For a document with one header, and templates with different context files: an entry that is a
    text, or that there was not, has the value in the header, or else that of the first template with
    a value (the own templates come before those they extend), or else the value from before. *)
Theorem C59_first_wins : forall to_int to_float lower order bases is_dir text templates_in pval,
  (forall l, Permutation (order l) l) -> forall C x h h' d F b,
  holds h (VRef (self x)) (TDict d) F ->
  (forall k, header_text (lookup k d) <> None <-> k = b) ->
  process_headers bases is_dir text templates_in to_int to_float lower order pval C x h = Ok h' ->
  exists name d' F', 
    let header := header_entries (lookup b d) in
    template_is (lookup (lit "template") header) (without_header (lookup (lit "template") d)) name /\
    holds h' (VRef (self x)) (TDict d') F' /\
    (NoDup (flat_map (context_file text) (all_template_paths bases is_dir templates_in (of_str name))) ->
    forall k v, k <> lit "paths" -> without_header (lookup k d) = as_tree v ->
      lookup k d' = as_tree
        match first_value (header :: map (fun p => entries_in (own_context text p)) (all_template_paths bases is_dir templates_in (of_str name))) k with
        | Some s => Some s
        | None => v
        end).
Proof.
  intros to_int to_float lower order bases is_dir text templates_in pval Ho C x h h' d F b HF Hb E.
  destruct (C59_result _ _ _ _ _ _ _ _ _ Ho _ _ _ _ _ _ HF E) as (keys & name & l & d' & F' & PK & Ht & _ & Hh & HE). cbn zeta in *.
  assert (Hk : keys = [b]).
  { assert (Hi : forall k, In k keys <-> k = b).
    { intros k. rewrite <- Hb. split; intros Hi.
      - eapply Permutation_in in Hi; [|exact PK]. apply filter_In in Hi as [_ Hi]. destruct (header_text (lookup k d)); [discriminate|discriminate Hi].
      - eapply Permutation_in; [symmetry; exact PK|]. apply filter_In. split; [|destruct (header_text (lookup k d)); [reflexivity|contradiction]].
        destruct (lookup k d) as [t|] eqn:Et; [exact (lookup_Some_keys _ _ _ Et)|exfalso; apply Hi; reflexivity]. }
    assert (Nd : NoDup keys).
    { eapply Permutation_NoDup; [symmetry; exact PK|]. apply NoDup_filter. destruct (dict_inv _ _ _ _ HF) as (vd & Ps & D & _). rewrite <- (dr_keys _ _ _ _ _ D). exact (dr_wf _ _ _ _ _ D). }
    destruct keys as [|k0 r]; [exfalso; exact (proj2 (Hi b) eq_refl)|]. rewrite (proj1 (Hi k0) (or_introl eq_refl)) in *.
    destruct r as [|k1 r]; [reflexivity|]. inversion Nd as [|? ? Hn0 _]; subst. exfalso. apply Hn0. left. apply Hi. right. left. reflexivity. }
  subst keys. cbn [map rev app first_value] in *.
  assert (H1 : forall k, match lookup k (header_entries (lookup b d)) with Some v => Some v | None => None end = lookup k (header_entries (lookup b d))) by (intros k; destruct (lookup k _); reflexivity).
  exists name, d', F'. split; [rewrite H1 in Ht; exact Ht|]. split; [exact Hh|]. intros Hn k v Hp Hv. destruct (HE k) as (m & M1 & M2).
  apply eqb_neq in Hp. rewrite Hp, Hv in M1. apply entry_texts in M1. subst m. rewrite H1 in M2. apply entry_texts in M2. rewrite M2. f_equal.
  unfold find_additional_context_filepaths. rewrite flat_map_rev by (intros; apply context_file_short). rewrite uniq_id by (apply NoDup_rev, Hn).
  rewrite <- map_rev, rev_involutive, context_values. destruct (lookup k (header_entries (lookup b d))); reflexivity.
Qed.

(** ** The templates *)
Lemma quote_In c : quote c = true <-> In c [34; 39]%N.
Proof.
  unfold quote. rewrite orb_true_iff, !N.eqb_eq. cbn. split; [intros [-> | ->]; auto|intros [<-|[<-|[]]]; auto].
Qed.
Lemma run_spec f : forall x a b, Headers.run f x = (a, b) -> x = a ++ b /\ forallb f a = true /\ (forall c r, b = c :: r -> f c = false).
Proof.
  induction x as [|c x IH]; cbn [Headers.run]; intros a b E; [injection E as <- <-; split; [reflexivity|split; [reflexivity|discriminate]]|].
  destruct (f c) eqn:Ec.
  - destruct (Headers.run f x) as [a' b'] eqn:Er. injection E as <- <-. destruct (IH _ _ eq_refl) as (-> & H1 & H2). split; [reflexivity|]. split; [cbn; rewrite Ec; exact H1|exact H2].
  - injection E as <- <-. split; [reflexivity|]. split; [reflexivity|]. intros c' r [= <- _]. exact Ec.
Qed.
Lemma run_stop f : forall a b, forallb f a = true -> (forall c r, b = c :: r -> f c = false) -> Headers.run f (a ++ b) = (a, b).
Proof.
  induction a as [|c a IH]; cbn [app]; intros b Ha Hb.
  - destruct b as [|c b]; [reflexivity|]. cbn [Headers.run]. rewrite (Hb c b eq_refl). reflexivity.
  - cbn [forallb] in Ha. apply andb_prop in Ha as [Hc Ha]. cbn [Headers.run]. rewrite Hc, IH by assumption. reflexivity.
Qed.
Lemma quote_no_space c : quote c = true -> rx_space c = false.
Proof. intros H. apply quote_In in H. destruct H as [<-|[<-|[]]]; reflexivity. Qed.
Lemma extends_at_iff x n : extends_at x = Some n <-> extends_after x nil n.
Proof.
  unfold extends_at, extends_after. split.
  - destruct (eat (lit "extends") x) as [r|] eqn:Ee; [|discriminate]. apply eat_iff in Ee. subst x.
    destruct (lstrip_p_decomp rx_space r) as (sp & Er & Hsp & Hst). destruct (lstrip_p rx_space r) as [|q z] eqn:El; [discriminate|].
    destruct (quote q) eqn:Eq; [|discriminate]. destruct (Headers.run _ z) as [a b] eqn:Erun. destruct a as [|n0 a]; [discriminate|]. destruct b as [|q2 b]; [discriminate|].
    intros [= <-]. apply run_spec in Erun as (-> & Ha & Hb). exists sp, q, q2, b. rewrite Er. split; [reflexivity|]. split; [exact Hsp|].
    split; [apply quote_In, Eq|]. split; [apply quote_In; specialize (Hb q2 b eq_refl); destruct (quote q2); [reflexivity|discriminate Hb]|]. split; [discriminate|].
    intros c Hc Hq. rewrite forallb_forall in Ha. apply Ha in Hc. apply quote_In in Hq. rewrite Hq in Hc. discriminate Hc.
  - intros (sp & q1 & q2 & rest & -> & Hsp & H1 & H2 & Hn & Hq). cbn [app]. rewrite (proj2 (eat_iff (lit "extends") _ (sp ++ q1 :: n ++ q2 :: rest)) eq_refl).
    apply quote_In in H1. apply quote_In in H2. rewrite (lstrip_p_unique rx_space sp (q1 :: n ++ q2 :: rest)); [|exact Hsp|intros c r [= <- _]; apply quote_no_space, H1].
    rewrite H1, run_stop; [destruct n; [contradiction|reflexivity]| |intros c r [= <- _]; rewrite H2; reflexivity].
    apply forallb_forall. intros c Hc. specialize (Hq c Hc). rewrite <- quote_In in Hq. destruct (quote c); [exfalso; auto|reflexivity].
Qed.
Lemma extends_shift c t b n : extends_after (c :: t) (c :: b) n <-> extends_after t b n.
Proof. unfold extends_after. split; intros (sp & q1 & q2 & rest & E & H); exists sp, q1, q2, rest; (split; [|exact H]); [injection E as E; exact E|cbn [app]; f_equal; exact E]. Qed.
Lemma extends_cons c t b n : extends_after (c :: t) b n -> b = nil \/ exists b', b = c :: b'.
Proof. intros (sp & q1 & q2 & rest & E & _). destruct b as [|c' b]; [auto|]. cbn in E. injection E as <- _. eauto. Qed.

(** The first parent template that a text names is found. *)
Theorem C59_extends : forall t name, extends_of t = Some name ->
  exists before, extends_after t before name /\
    (forall before' name', extends_after t before' name' -> length before <= length before') /\
    (forall name', extends_after t before name' -> name' = name).
Proof.
  induction t as [|c t IH]; intros name E.
  - exfalso. cbn [extends_of] in E. destruct (extends_at nil) eqn:Ea; [discriminate Ea|discriminate E].
  - cbn [extends_of] in E. destruct (extends_at (c :: t)) as [m|] eqn:Ea.
    + injection E as ->. exists nil. split; [apply extends_at_iff, Ea|]. split; [cbn; lia|]. intros n' H'. apply extends_at_iff in H'. congruence.
    + destruct (IH _ E) as (b & H1 & H2 & H3). exists (c :: b). split; [apply extends_shift, H1|]. split.
      * intros b' n' H'. destruct (extends_cons _ _ _ _ H') as [-> | [b0 ->]]; [apply extends_at_iff in H'; congruence|]. apply (extends_shift c t b0 n') in H'. apply H2 in H'. cbn. lia.
      * intros n' H'. apply H3, (extends_shift c), H'.
Qed.
Theorem C59_no_extends : forall t, extends_of t = None -> forall before name, ~ extends_after t before name.
Proof.
  induction t as [|c t IH]; intros E b n H.
  - destruct H as (sp & q1 & q2 & rest & Eq & _). destruct b; discriminate Eq.
  - cbn [extends_of] in E. destruct (extends_at (c :: t)) as [m|] eqn:Ea; [discriminate E|]. destruct (extends_cons _ _ _ _ H) as [-> | [b' ->]].
    + apply extends_at_iff in H. congruence.
    + apply (extends_shift c t b' n) in H. exact (IH E _ _ H).
Qed.

(** The directories of a template: each once, only directories; all that have the name of the
    template, and otherwise those above them. *)
Lemma template_paths_inv bases is_dir name :
  forall l acc, NoDup acc ->
  let r := fold_left (fun paths base =>
    let template_path := path_join base name in
    if is_dir template_path && negb (mem template_path paths) then template_path :: paths
    else if is_dir (path_parent template_path) && negb (mem (path_parent template_path) paths)
    then path_parent template_path :: paths
    else paths) l acc in
  (forall b, In b l -> In b bases) ->
  NoDup r /\ (forall p, In p acc -> In p r) /\
  (forall p, In p r -> In p acc \/ (is_dir p = true /\ exists base, In base bases /\ (p = path_join base name \/ p = path_parent (path_join base name)))) /\
  (forall base, In base l -> is_dir (path_join base name) = true -> In (path_join base name) r) /\
  (forall base, In base l -> is_dir (path_join base name) = false -> is_dir (path_parent (path_join base name)) = true -> In (path_parent (path_join base name)) r).
Proof.
  induction l as [|b l IH]; intros acc Nd r Hl.
  - split; [exact Nd|]. split; [auto|]. split; [auto|]. split; intros base [].
  - cbn [fold_left] in r.
    set (acc' := if is_dir (path_join b name) && negb (mem (path_join b name) acc) then path_join b name :: acc
      else if is_dir (path_parent (path_join b name)) && negb (mem (path_parent (path_join b name)) acc) then path_parent (path_join b name) :: acc else acc) in *.
    assert (A : NoDup acc' /\ (forall p, In p acc -> In p acc') /\
      (forall p, In p acc' -> In p acc \/ (is_dir p = true /\ exists base, In base bases /\ (p = path_join base name \/ p = path_parent (path_join base name)))) /\
      (is_dir (path_join b name) = true -> In (path_join b name) acc') /\
      (is_dir (path_join b name) = false -> is_dir (path_parent (path_join b name)) = true -> In (path_parent (path_join b name)) acc')).
    { pose proof (Hl b (or_introl eq_refl)) as Hb. unfold acc'. destruct (is_dir (path_join b name)) eqn:E1; cbn [andb].
      - destruct (mem (path_join b name) acc) eqn:M1; cbn [negb].
        + apply mem_In in M1. destruct (is_dir (path_parent (path_join b name)) && _) eqn:E2.
          * apply andb_prop in E2 as [E2 E3]. apply negb_true_iff, mem_not_In in E3. split; [constructor; assumption|]. split; [right; assumption|]. split; [|split; [intros; right; exact M1|discriminate]].
            intros p [<-|Hp]; [right; split; [exact E2|]; exists b; auto|auto].
          * split; [exact Nd|]. split; [auto|]. split; [auto|]. split; [auto|discriminate].
        + apply mem_not_In in M1. split; [constructor; assumption|]. split; [right; assumption|]. split; [|split; [intros; left; reflexivity|discriminate]].
          intros p [<-|Hp]; [right; split; [exact E1|]; exists b; auto|auto].
      - destruct (is_dir (path_parent (path_join b name))) eqn:E2; cbn [andb].
        + destruct (mem (path_parent (path_join b name)) acc) eqn:M1; cbn [negb].
          * apply mem_In in M1. split; [exact Nd|]. split; [auto|]. split; [auto|]. split; [discriminate|auto].
          * apply mem_not_In in M1. split; [constructor; assumption|]. split; [right; assumption|]. split; [|split; [discriminate|intros; left; reflexivity]].
            intros p [<-|Hp]; [right; split; [exact E2|]; exists b; auto|auto].
        + split; [exact Nd|]. split; [auto|]. split; [auto|]. split; discriminate. }
    destruct A as (A1 & A2 & A3 & A4 & A5). destruct (IH acc' A1) as (B1 & B2 & B3 & B4 & B5); [intros y Hy; apply Hl; right; exact Hy|].
    fold r in B1, B2, B3, B4, B5. split; [exact B1|]. split; [auto|]. split; [intros p Hp; apply B3 in Hp as [Hp|Hp]; [apply A3 in Hp; exact Hp|auto]|].
    split; intros base [<-|Hi]; auto.
Qed.
Theorem C59_directories : forall bases is_dir name,
  NoDup (find_template_paths bases is_dir name) /\
  (forall p, In p (find_template_paths bases is_dir name) -> is_dir p = true /\
     exists base, In base bases /\ (p = path_join base name \/ p = path_parent (path_join base name))) /\
  (forall base, In base bases -> is_dir (path_join base name) = true -> In (path_join base name) (find_template_paths bases is_dir name)) /\
  (forall base, In base bases -> is_dir (path_join base name) = false -> is_dir (path_parent (path_join base name)) = true ->
     In (path_parent (path_join base name)) (find_template_paths bases is_dir name)).
Proof.
  intros bases is_dir name. pose proof (template_paths_inv bases is_dir name bases nil (NoDup_nil _)) as H. cbn zeta in H. destruct H as (H1 & _ & H3 & H4 & H5); [auto|].
  unfold find_template_paths. rewrite uniq_id by exact H1. split; [exact H1|]. split; [|split; assumption]. intros p Hp. destruct (H3 p Hp) as [[]|H]; exact H.
Qed.
(** With one directory of templates: the directory of the template, if there is one *)
Theorem C59_directory : forall base is_dir name, is_dir (path_join base name) = true ->
  find_template_paths [base] is_dir name = [path_join base name].
Proof. intros base is_dir name H. unfold find_template_paths. cbn [fold_left]. rewrite H. reflexivity. Qed.

(** The directories of the template come first, then those of the templates that its files extend;
    each once. *)
Lemma uniq_app_fresh {A} `{EqDec A} (a b : list A) : NoDup a -> exists c, uniq (a ++ b) = a ++ c.
Proof.
  intros Nd. unfold uniq, uniq_by. assert (G : forall a seen, NoDup a -> (forall x, In x a -> ~ In x seen) -> exists c, unique_everseen (fun x => x) seen (a ++ b) = a ++ c).
  { clear a Nd. induction a as [|x a IH]; intros seen Nd Hs; [exists (unique_everseen (fun x => x) seen b); reflexivity|].
    inversion Nd as [|? ? Hn Nd']; subst. cbn [app unique_everseen]. rewrite (proj2 (mem_not_In x seen) (Hs x (or_introl eq_refl))).
    destruct (IH (x :: seen) Nd') as [c Ec]; [|exists c; rewrite Ec; reflexivity].
    intros y Hy [<-|Hi]; [contradiction|]. exact (Hs y (or_intror Hy) Hi). }
  apply G; [exact Nd|]. intros x _ [].
Qed.
Theorem C59_own_first : forall bases is_dir templates_in name,
  NoDup (all_template_paths bases is_dir templates_in name) /\
  exists parents, all_template_paths bases is_dir templates_in name = find_template_paths bases is_dir name ++ parents /\
    forall p, In p parents <-> ~ In p (find_template_paths bases is_dir name) /\
      exists dir file parent, In dir (find_template_paths bases is_dir name) /\ In file (templates_in dir) /\
        extends_of file = Some parent /\ path_str (path_parent (path_parent (of_str parent))) <> lit "." /\
        In p (find_template_paths bases is_dir (path_parent (path_parent (of_str parent)))).
Proof.
  intros bases is_dir templates_in name. destruct (C59_directories bases is_dir name) as (Nd & _).
  split; [apply uniq_NoDup|]. unfold all_template_paths. cbn zeta. set (own := find_template_paths bases is_dir name) in *.
  set (more := flat_map (find_parent_templates bases is_dir templates_in) own).
  destruct (uniq_app_fresh own more Nd) as [c Ec]. exists c. split; [exact Ec|].
  pose proof (uniq_NoDup (own ++ more)) as N2. rewrite Ec in N2.
  assert (Hin : forall p, In p c <-> ~ In p own /\ In p more).
  { intros p. assert (Hu : In p (own ++ c) <-> In p (own ++ more)) by (rewrite <- Ec; apply uniq_In). rewrite !in_app_iff in Hu. split.
    - intros Hc. split; [|]. { intros Ho. clear -N2 Ho Hc. induction own as [|x own IH]; [exact Ho|]. cbn [app] in N2. inversion N2 as [|? ? Hn N3]; subst.
        destruct Ho as [->|Ho]; [apply Hn, in_or_app; auto|exact (IH N3 Ho)]. }
      destruct (proj1 Hu (or_intror Hc)) as [Ho|Hm]; [|exact Hm]. exfalso. clear -N2 Ho Hc. induction own as [|x own IH]; [exact Ho|]. cbn [app] in N2. inversion N2 as [|? ? Hn N3]; subst.
        destruct Ho as [->|Ho]; [apply Hn, in_or_app; auto|exact (IH N3 Ho)].
    - intros [Hn Hm]. destruct (proj2 Hu (or_intror Hm)) as [Ho|Hc]; [contradiction|exact Hc]. }
  intros p. rewrite Hin. unfold more. rewrite in_flat_map. split.
  - intros [Hn (dir & Hd & Hp)]. split; [exact Hn|]. unfold find_parent_templates, parent_name in Hp. apply uniq_In, in_flat_map in Hp as (file & Hf & Hp).
    destruct (extends_of file) as [parent|] eqn:Ee; [|contradiction]. destruct (eqb_spec (path_str (path_parent (path_parent (of_str parent)))) (lit ".")) as [_|Hd']; [contradiction|].
    exists dir, file, parent. auto.
  - intros [Hn (dir & file & parent & Hd & Hf & Ee & Hd' & Hp)]. split; [exact Hn|]. exists dir. split; [exact Hd|]. unfold find_parent_templates, parent_name. apply uniq_In, in_flat_map.
    exists file. split; [exact Hf|]. rewrite Ee. apply eqb_neq in Hd'. rewrite Hd'. exact Hp.
Qed.

(** ** Findings *)
(** Only the templates that the own templates extend are used: a template that one of these extends
    is not, although its text becomes part of the document. *)
Definition chain_dirs (p : path) : bool := mem (path_str p) [lit "/t"; lit "/t/a"; lit "/t/b"; lit "/t/c"].
Definition chain_files (p : path) : list str :=
  if eqb (path_str p) (lit "/t/a") then [lit "{% extends 'b/html/template.html' %}"]
  else if eqb (path_str p) (lit "/t/b") then [lit "{% extends 'c/html/template.html' %}"] else nil.
Theorem C59_grandparents_refuted :
  ~ (forall bases is_dir templates_in name dir file parent p,
     In dir (all_template_paths bases is_dir templates_in name) -> In file (templates_in dir) ->
     extends_of file = Some parent -> path_str (path_parent (path_parent (of_str parent))) <> lit "." ->
     In p (find_template_paths bases is_dir (path_parent (path_parent (of_str parent)))) ->
     In p (all_template_paths bases is_dir templates_in name)).
Proof.
  intros H.
  specialize (H [of_str (lit "/t")] chain_dirs chain_files (of_str (lit "a")) (of_str (lit "/t/b")) (lit "{% extends 'c/html/template.html' %}") (lit "c/html/template.html") (of_str (lit "/t/c"))).
  assert (E : all_template_paths [of_str (lit "/t")] chain_dirs chain_files (of_str (lit "a")) = [of_str (lit "/t/a"); of_str (lit "/t/b")]) by (vm_compute; reflexivity).
  rewrite E in H. destruct H as [H|[H|[]]]; try (vm_compute in H; discriminate H).
  - right. left. reflexivity.
  - vm_compute. left. reflexivity.
  - vm_compute. reflexivity.
  - vm_compute. discriminate.
  - vm_compute. left. reflexivity.
Qed.
(** A name that no template has gives the directory of all templates. *)
Theorem C59_unknown_refuted :
  ~ (forall bases is_dir name, (forall base, In base bases -> is_dir (path_join base name) = false) -> find_template_paths bases is_dir name = nil).
Proof.
  intros H. specialize (H [of_str (lit "/t")] chain_dirs (of_str (lit "defualt"))).
  discriminate H. intros base [<-|[]]. vm_compute. reflexivity.
Qed.
(** The values of a template come before those of the templates it extends, but not always: a context
    file shared by two templates is read where the second of them is. *)
Definition shared_texts (p : path) : option str :=
  if eqb (path_str p) (lit "/t/books/context.txt") then Some (lit "size: 12")
  else if eqb (path_str p) (lit "/t/default/context.txt") then Some (lit "size: 10") else None.
Theorem C59_nearest_refuted :
  ~ (forall text paths k,
     first_value (rev (map (fun f => snd (load_from_string (read_text text f))) (find_additional_context_filepaths text (rev paths)))) k =
     first_value (map (fun p => entries_in (own_context text p)) paths) k).
Proof.
  intros H. specialize (H shared_texts [of_str (lit "/t/books/tufte"); of_str (lit "/t/default"); of_str (lit "/t/books/novel")] (lit "size")).
  vm_compute in H. discriminate H.
Qed.
Theorem C59_nearest : forall text paths k, NoDup (flat_map (context_file text) paths) ->
  first_value (rev (map (fun f => snd (load_from_string (read_text text f))) (find_additional_context_filepaths text (rev paths)))) k =
  first_value (map (fun p => entries_in (own_context text p)) paths) k.
Proof.
  intros text paths k Hn. unfold find_additional_context_filepaths. rewrite flat_map_rev by (intros; apply context_file_short). rewrite uniq_id by (apply NoDup_rev, Hn).
  rewrite <- map_rev, rev_involutive. apply context_values.
Qed.

(** ** Example *)
Definition ex_body : str := lit "---" ++ [10]%N ++ lit "title: T" ++ [10]%N ++ lit "---" ++ [10]%N ++ lit "text".
Definition ex_heap : list cell :=
  [CDict [(lit "body", VS (SStr ex_body)); (lit "template", VS (SStr (lit "a"))); (lit "title", VS (SStr (lit "none")));
          (lit "font", VS (SStr (lit "old"))); (lit "paths", VRef 1)]; CList [VS (SStr (lit "src"))]].
Definition ex_tree : dict str tree :=
  [(lit "body", TS (SStr ex_body)); (lit "template", TS (SStr (lit "a"))); (lit "title", TS (SStr (lit "none")));
   (lit "font", TS (SStr (lit "old"))); (lit "paths", TList [TS (SStr (lit "src"))])].
Definition ex_context : context := {| self := 0; parent := None; initial := 0 |}.
Definition ex_texts (p : path) : option str :=
  if eqb (path_str p) (lit "/t/a/context.txt") then Some (lit "title: A" ++ [10]%N ++ lit "font: serif")
  else if eqb (path_str p) (lit "/t/b/context.txt") then Some (lit "font: sans" ++ [10]%N ++ lit "size: 12") else None.
Definition ex_run := process_headers [of_str (lit "/t")] chain_dirs ex_texts chain_files (fun _ => Raise ValueError) (fun _ => Raise ValueError)
  (fun s => s) (fun l => l) (fun p => SStr (path_str p)) DocumentContext ex_context ex_heap.
Example C59_ex :
  (exists F, holds ex_heap (VRef 0) (TDict ex_tree) F) /\
  (forall k, header_text (lookup k ex_tree) <> None <-> k = lit "body") /\
  NoDup (flat_map (context_file ex_texts) (all_template_paths [of_str (lit "/t")] chain_dirs chain_files (of_str (lit "a")))) /\
  match ex_run with
  | Ok h => match nth_error h 0 with
            | Some (CDict d) => map (fun k => lookup (lit k) d) ["body"; "title"; "font"; "size"]%string =
                map (fun s => Some (VS (SStr (lit s)))) ["text"; "T"; "serif"; "12"]%string
            | _ => False
            end /\ nth_error h 1 = Some (CList (map (fun s => VS (SStr (lit s))) ["/t/a"; "/t/b"; "src"]%string))
  | Raise _ => False
  end.
Proof.
  split; [|split; [|split]].
  - eexists. apply (holds_dict ex_heap 0 (match ex_heap with CDict d :: _ => d | _ => nil end) ex_tree
      (fun k => if eqb k (lit "paths") then (fun x => x = 1 \/ (False \/ False)) else fun _ => False)); try reflexivity.
    + apply (Permutation_NoDup (Permutation_refl _)). vm_compute. repeat constructor; cbn; intuition discriminate.
    + intros k. unfold ex_tree, ex_heap. cbn [lookup]. destruct (eqb_spec k (lit "paths")) as [->|].
      * apply entry_some. apply (holds_list ex_heap 1 [VS (SStr (lit "src"))] _ (fun _ => False \/ False)); [reflexivity| |tauto].
        apply (all_cons ex_heap (VS (SStr (lit "src"))) (TS (SStr (lit "src"))) (fun _ => False) nil nil (fun _ => False)); constructor.
      * repeat match goal with |- context [eqb k ?s] => destruct (eqb k s) end; repeat constructor.
    + intros k. destruct (eqb k (lit "paths")); intuition discriminate.
    + intros k1 k2 x. destruct (eqb_spec k1 (lit "paths")) as [->|], (eqb_spec k2 (lit "paths")) as [->|]; tauto.
  - intros k. split.
    + unfold ex_tree. cbn [lookup]. intros Hk. destruct (eqb_spec k (lit "body")); [assumption|exfalso; apply Hk].
      repeat match goal with |- context [eqb k ?s] => destruct (eqb k s) end; vm_compute; reflexivity.
    + intros ->. vm_compute. discriminate.
  - vm_compute. repeat constructor; cbn; intuition discriminate.
  - vm_compute. split; reflexivity.
Qed.
