(** C89: panels of figures in tex *)
From Coq Require Import List Bool Arith NArith ZArith QArith Lia.
From Verif.Base Require Import Str StrFacts Dict DictFacts Result ListFacts.
From Verif.Model Require Import Attributes Formats StringUtils Width Panel.
From Verif.Spec Require Import StringUtils Panel.
From Verif.Spec Require Width.
From Verif.Proof Require Import StringUtils.
From Verif.Props Require Import Width.
Import ListNotations.
Open Scope nat_scope.

Definition ne (l : str) : bool := negb (eqb l nil).
Definition unl (ls : list str) : str := concat (map (fun l => l ++ [10%N]) ls).
Definition L (s : str) : list str := filter ne (split_c 10%N s).

Lemma join_unl ls : ls <> nil -> join [10%N] ls ++ [10%N] = unl ls.
Proof.
  induction ls as [|l ls IH]; [congruence|]. intros _. destruct ls as [|m ls].
  - unfold unl. cbn. now rewrite app_nil_r.
  - rewrite join_cons by discriminate. change (unl (l :: m :: ls)) with ((l ++ [10%N]) ++ unl (m :: ls)).
    rewrite <- IH by discriminate. now rewrite <- !app_assoc.
Qed.
Lemma multi_line prev l r : ~ In 10%N l ->
  strip_multi_from prev (l ++ 10%N :: r) =
  match l with nil => if prev then strip_multi_from true r else 10%N :: strip_multi_from true r
  | _ => l ++ 10%N :: strip_multi_from true r end.
Proof.
  revert prev. induction l as [|c l IH]; intros prev H; [reflexivity|]. cbn [app strip_multi_from].
  destruct (N.eqb_spec c nl) as [->|_]; [exfalso; apply H; now left|].
  rewrite IH by (intros I; apply H; now right). destruct l; reflexivity.
Qed.
Lemma multi_lines ls : Forall (fun l => ~ In 10%N l) ls -> strip_multi_from true (unl ls) = unl (filter ne ls).
Proof.
  induction 1 as [|l ls H _ IH]; [reflexivity|]. change (unl (l :: ls)) with ((l ++ [10%N]) ++ unl ls).
  rewrite <- app_assoc. cbn [app]. rewrite multi_line by exact H. rewrite IH. destruct l as [|c l]; [reflexivity|].
  cbn [filter ne]. change (ne (c :: l)) with true. cbv iota. unfold unl. cbn [map concat]. now rewrite <- app_assoc.
Qed.
Lemma multi_text s : strip_multi_from true (s ++ [10%N]) = unl (L s).
Proof.
  rewrite <- (join_split_c 10%N s) at 1. rewrite join_unl by apply split_c_nonnil. apply multi_lines.
  apply Forall_forall. intros l. apply split_c_no_sep.
Qed.
Lemma split_app (a b : str) : split_c 10%N (a ++ 10%N :: b) = split_c 10%N a ++ split_c 10%N b.
Proof.
  rewrite <- (join_split_c 10%N a) at 1. generalize (split_c_no_sep 10%N a). generalize (split_c_nonnil 10%N a).
  generalize (split_c 10%N a) as ls. induction ls as [|l ls IH]; [congruence|]. intros _ H.
  assert (Hl : ~ In 10%N l) by (apply H; now left). destruct ls as [|m ls].
  - cbn [join]. now apply split_c_app.
  - rewrite join_cons by discriminate. rewrite <- !app_assoc. cbn [app]. rewrite split_c_app by exact Hl.
    cbn [app]. f_equal. apply IH; [discriminate|]. intros w Hw. apply H. now right.
Qed.
Lemma L_app a b : L (a ++ 10%N :: b) = L a ++ L b.
Proof. unfold L. now rewrite split_app, filter_app. Qed.
Lemma L_start b : L (10%N :: b) = L b.
Proof. change (10%N :: b) with ([] ++ 10%N :: b). now rewrite L_app. Qed.
Lemma L_end a : L (a ++ [10%N]) = L a.
Proof. rewrite L_app. apply app_nil_r. Qed.

(** The content of an environment, which is between newlines *)
Definition between (x : str) : str :=
  let c := if startswith x [10%N] then x else 10%N :: x in if endswith c [10%N] then c else c ++ [10%N].
Lemma between_L (b x e : str) : L (b ++ between x ++ e) = L b ++ L x ++ L e.
Proof.
  unfold between. set (c := if startswith x [10%N] then x else 10%N :: x).
  assert (exists y, c = 10%N :: y /\ L y = L x) as (y & Ec & Ey).
  { unfold c. destruct (startswith x [10%N]) eqn:S; [|now exists x]. apply startswith_iff in S as [y ->].
    exists y. split; [reflexivity|]. symmetry. apply L_start. }
  rewrite Ec, <- Ey. destruct (endswith (10%N :: y) [10%N]) eqn:E.
  - apply endswith_iff in E as [z E]. destruct z as [|n z].
    + injection E as ->. cbn [app]. now rewrite L_app.
    + injection E as <- ->. cbn [app]. rewrite L_app, <- app_assoc. cbn [app]. rewrite L_app, L_end. reflexivity.
  - cbn [app]. rewrite L_app, <- app_assoc. cbn [app]. now rewrite L_app.
Qed.

Section Panel.
Variables (to_float : str -> option num) (times100 : num -> num).
Notation panel_tex := (panel_tex to_float times100).

(** The argument of the environment *)
Lemma arg_one d p : tex_params tex_env_arguments tex_env_optionals true (lit "panel") d = Ok p ->
  exists k v, find_item d (RPos PStr) (Some (lit "tex")) = Some (k, v) /\ p = tex_arg (strip_attr k, v).
Proof.
  unfold tex_params.
  change (lookup (lit "panel") tex_env_arguments) with (Some [RPos PStr]).
  change (lookup (lit "panel") tex_env_optionals) with (@None (list areq)).
  change (negb (has (lit "panel") tex_env_arguments) && negb (has (lit "panel") tex_env_optionals)) with false. cbv iota.
  unfold filter_attrs. change (norm_target (Some (lit "tex"))) with (Some (lit "tex")).
  change (ListUtils.uniq [RPos PStr]) with [RPos PStr]. cbv zeta. cbv iota.
  change (filter_removed [RPos PStr] (Some (lit "tex"))) with (@nil areq).
  change (filter (fun a : areq => negb (mem a [])) [RPos PStr]) with [RPos PStr]. cbn [fold_left].
  destruct (find_item d (RPos PStr) (Some (lit "tex"))) as [[k v]|]; [|discriminate].
  intros H. exists k, v. split; [reflexivity|]. revert H. cbn [set]. unfold strip_attrs, copy.
  destruct (has (lit "self") [(k, v)]); [discriminate|]. cbn [bind keys map fst filter].
  unfold is_target_specific. destruct (eqb_spec k (strip_attr k)) as [E|E].
  - cbn [negb map filter mem existsb fold_left lookup]. rewrite eqb_refl. cbn [set length Nat.eqb bind].
    intros H. injection H as <-. unfold tex_arguments. cbn [map concat]. now rewrite !app_nil_r.
  - cbn [negb map filter mem existsb]. rewrite (proj2 (eqb_neq k (strip_attr k)) E).
    cbn [orb negb fold_left lookup]. rewrite eqb_refl. cbn [set length Nat.eqb bind].
    intros H. injection H as <-. unfold tex_arguments. cbn [map concat]. now rewrite !app_nil_r.
Qed.
Lemma L_first c s : c <> 10%N -> exists w r, L (c :: s) = (c :: w) :: r.
Proof.
  intros H. unfold L. cbn [split_c]. rewrite (proj2 (eqb_neq 10%N c)) by congruence.
  destruct (split_c 10%N s) as [|w ws]; cbn [filter]; eexists _, _; reflexivity.
Qed.
Lemma join_first (sep : str) c w r : exists t, join sep ((c :: w) :: r) = c :: t.
Proof. destruct r; eexists; reflexivity. Qed.
Lemma join_last (sep : str) l e : exists t, join sep (l ++ [e]) = t ++ e.
Proof.
  induction l as [|x l [t E]]; [now exists nil|]. cbn [app]. rewrite join_cons by (destruct l; discriminate).
  rewrite E. exists (x ++ sep ++ t). now rewrite <- !app_assoc.
Qed.
Lemma panel_L arg x : L (panel arg x) = L (lit "\begin{panel}{" ++ arg ++ lit "}") ++ L x ++ [lit "\end{panel}"].
Proof.
  unfold panel. replace (lit "\begin{panel}{" ++ arg ++ lit "}" ++ [10%N] ++ x ++ [10%N] ++ lit "\end{panel}")
    with ((lit "\begin{panel}{" ++ arg ++ lit "}") ++ 10%N :: x ++ 10%N :: lit "\end{panel}") by now rewrite <- !app_assoc.
  rewrite !L_app. reflexivity.
Qed.
Lemma strip_panel arg x : strip (10%N :: unl (L (panel arg x))) = join [10%N] (L (panel arg x)).
Proof.
  assert (Hne : L (panel arg x) <> nil) by (rewrite panel_L; intros H; destruct (L (lit "\begin{panel}{" ++ arg ++ lit "}")); [destruct (L x)|]; discriminate).
  rewrite <- join_unl by exact Hne. unfold strip.
  change (10%N :: join [10%N] (L (panel arg x)) ++ [10%N]) with ([10%N] ++ join [10%N] (L (panel arg x)) ++ [10%N]).
  apply strip_p_unique; [reflexivity|reflexivity|]. split; intros c r E.
  - destruct (L_first 92%N (tl (panel arg x))) as (w & ls & El); [discriminate|].
    change (92%N :: tl (panel arg x)) with (panel arg x) in El. rewrite El in E.
    destruct (join_first [10%N] 92%N w ls) as [t Et]. rewrite Et in E. injection E as <- _. reflexivity.
  - rewrite panel_L, app_assoc in E. destruct (join_last [10%N] (L (lit "\begin{panel}{" ++ arg ++ lit "}") ++ L x) (lit "\end{panel}")) as [t Et].
    rewrite Et in E. change (lit "\end{panel}") with (lit "\end{panel" ++ lit "}") in E. rewrite app_assoc in E.
    apply app_inj_tail in E as [_ <-]. reflexivity.
Qed.
Lemma panel_tex_join d x r : panel_tex d x = Ok r ->
  exists d' k v, tex_percentwidth to_float times100 d (Some (lit ".tex")) true = Ok d' /\
    find_item d' (RPos PStr) (Some (lit "tex")) = Some (k, v) /\
    r = join [10%N] (L (panel (match v with VPos _ => strip_attr k | _ => aval_str v end) x)).
Proof.
  unfold panel_tex, Panel.panel_tex, copy. destruct (has (lit "self") d); [discriminate|]. cbn [bind].
  destruct (tex_percentwidth to_float times100 d (Some (lit ".tex")) true) as [d'|]; [|discriminate]. cbn [bind].
  unfold tex_env. destruct (tex_params tex_env_arguments tex_env_optionals true (lit "panel") d') as [p|] eqn:E; [|discriminate].
  destruct (arg_one d' p E) as (k & v & Hf & Hp). cbn [bind indented]. intros H. injection H as <-.
  exists d', k, v. split; [reflexivity|]. split; [exact Hf|]. fold (between x). unfold strip_multi_newlines.
  set (arg := match v with VPos _ => strip_attr k | _ => aval_str v end).
  assert (Ep : p = lit "{" ++ arg ++ lit "}") by (rewrite Hp; unfold arg, tex_arg; destruct v; reflexivity). clearbody arg. clear Hp E. subst p.
  transitivity (strip (strip_multi_from false (10%N :: ((lit "\begin{panel}{" ++ arg ++ lit "}") ++ between x ++ lit "\end{panel}") ++ [10%N]))).
  { rewrite <- !app_assoc. reflexivity. }
  match goal with |- strip (strip_multi_from false (10%N :: ?t ++ [10%N])) = _ =>
    change (strip_multi_from false (10%N :: t ++ [10%N])) with (10%N :: strip_multi_from true (t ++ [10%N])) end.
  rewrite multi_text, between_L. change (L (lit "\end{panel}")) with [lit "\end{panel}"]. rewrite <- panel_L. apply strip_panel.
Qed.
Lemma L_lines s : L s <> nil -> without_empty_lines s (join [10%N] (L s)).
Proof.
  intros H ls Hl. apply pieces_of_split in Hl. apply pieces_of_split. subst ls. change (filter _ (split_c 10%N s)) with (L s).
  apply split_c_join; [exact H|]. intros w Hw. unfold L in Hw. apply filter_In in Hw as [Hw _]. eapply split_c_no_sep; eauto.
Qed.
Lemma panel_ne arg x : L (panel arg x) <> nil.
Proof. rewrite panel_L. intros H. apply app_eq_nil in H as [_ H]. apply app_eq_nil in H as [_ H]. discriminate. Qed.

(** C89: the tex of a panel is its environment without empty lines: all the other lines of the content are there in order. *)
Theorem C89_lines :
  forall d x r, panel_tex d x = Ok r -> exists arg, without_empty_lines (panel arg x) r.
Proof.
  intros d x r H. destruct (panel_tex_join d x r H) as (d' & k & v & _ & _ & ->). eexists. apply L_lines, panel_ne.
Qed.

Lemma no_empty_join ls : Forall (fun l => ne l = true /\ ~ In 10%N l) ls ->
  no_empty_line (join [10%N] ls) /\ (forall t, join [10%N] ls <> 10%N :: t) /\ (forall t, join [10%N] ls <> t ++ [10%N]).
Proof.
  induction 1 as [|l ls [Hn Hl] Hls (I1 & I2 & I3)].
  - cbn. repeat split; [intros [|? ?] b E; discriminate|discriminate|intros [|? ?]; discriminate].
  - destruct l as [|c l]; [discriminate|].
    assert (Hc : c <> 10%N) by (intros ->; apply Hl; now left).
    destruct ls as [|m ls].
    + cbn [join]. repeat split.
      * intros a b E. apply Hl. rewrite E. apply in_or_app. right. now left.
      * intros t E. injection E as E _. congruence.
      * intros t E. apply Hl. rewrite E. apply in_or_app. right. now left.
    + rewrite join_cons by discriminate. assert (Hm : join [10%N] (m :: ls) <> nil) by (inversion Hls as [|? ? [Hm _] _]; subst; destruct m; [discriminate|destruct ls; discriminate]).
      set (j := join [10%N] (m :: ls)) in *. repeat split.
      * intros a b E. apply app_eq_app in E as (u & [(E1 & E2)|(E1 & E2)]).
        -- destruct u as [|n u].
           ++ injection E2 as E2. exact (I2 _ (eq_sym E2)).
           ++ assert (n = 10%N) by (cbn [app] in E2; congruence). subst n. apply Hl. rewrite E1. apply in_or_app. right. now left.
        -- destruct u as [|n u].
           ++ cbn [app] in E2. injection E2 as E2. exact (I2 _ E2).
           ++ cbn [app] in E2. injection E2 as _ E2. exact (I1 u b E2).
      * intros t E. injection E as E _. congruence.
      * intros t E. destruct (list_eq_dec N.eq_dec j nil) as [Ej|Hj].
        -- rewrite Ej in E. apply (Hm Ej).
        -- destruct (exists_last Hj) as (j' & n & Ej). rewrite Ej in E. rewrite !app_assoc in E. apply app_inj_tail in E as [_ ->]. exact (I3 _ Ej).
Qed.
Lemma panel_shape d x r : panel_tex d x = Ok r ->
  no_empty_line r /\ (exists t, r = lit "\" ++ t) /\ (exists t, r = t ++ lit "\end{panel}").
Proof.
  intros H. destruct (panel_tex_join d x r H) as (d' & k & v & _ & _ & ->).
  set (arg := match v with VPos _ => strip_attr k | _ => aval_str v end). split; [|split].
  - apply no_empty_join. apply Forall_forall. intros l Hl. unfold L in Hl. apply filter_In in Hl as [Hl Hn].
    split; [exact Hn|]. eapply split_c_no_sep; eauto.
  - destruct (L_first 92%N (tl (panel arg x))) as (w & ls & El); [discriminate|].
    change (92%N :: tl (panel arg x)) with (panel arg x) in El. rewrite El.
    destruct (join_first [10%N] 92%N w ls) as [t Et]. exists t. exact Et.
  - rewrite panel_L, app_assoc. apply join_last.
Qed.
Lemma no_empty_glue a b g : no_empty_line a -> no_empty_line b -> (forall t, a <> t ++ [10%N]) -> (forall t, b <> 10%N :: t) ->
  g = nil \/ g = [10%N] -> no_empty_line (a ++ g ++ b).
Proof.
  intros Ha Hb He Hs Hg u w E. apply app_eq_app in E as (m & [(E1 & E2)|(E1 & E2)]).
  - destruct m as [|n m].
    + destruct Hg as [->| ->]; cbn [app] in E2.
      * exact (Hs _ (eq_sym E2)).
      * injection E2 as E2. exact (Hs _ (eq_sym E2)).
    + destruct m as [|n' m].
      * cbn [app] in E2. injection E2 as <- E2. exact (He _ E1).
      * cbn [app] in E2. injection E2 as <- <- E2. apply (Ha u m). exact E1.
  - destruct Hg as [->| ->]; cbn [app] in E2.
    + exact (Hb _ _ E2).
    + destruct m as [|n m]; cbn [app] in E2.
      * injection E2 as E2. exact (Hs _ E2).
      * injection E2 as _ E2. exact (Hb _ _ E2).
Qed.
(** C89: panels that follow each other, in one line or in two, stay in one paragraph: there is no empty line in them or between them. *)
Theorem C89_side_by_side :
  forall d x r d' x' r' g, panel_tex d x = Ok r -> panel_tex d' x' = Ok r' -> g = nil \/ g = [10%N] ->
    no_empty_line (r ++ g ++ r').
Proof.
  intros d x r d' x' r' g H H' Hg. destruct (panel_shape _ _ _ H) as (N1 & _ & (t1 & E1)).
  destruct (panel_shape _ _ _ H') as (N2 & (t2 & E2) & _). apply no_empty_glue; auto.
  - intros t E. rewrite E1 in E. change (lit "\end{panel}") with (lit "\end{panel" ++ lit "}") in E. rewrite app_assoc in E.
    apply app_inj_tail in E as [_ E]. discriminate.
  - intros t E. rewrite E2 in E. discriminate.
Qed.

(** The names and values of the attributes of a panel: none is positional, none is 'self', and no name has the sign '<' *)
Definition named (d : attrs) : Prop :=
  (forall k p, ~ In (k, VPos p) d) /\ (forall k v, In (k, v) d -> ~ In 60%N k) /\ ~ In (lit "self") (keys d).
Definition positional (kv : str * aval) : bool := match snd kv with VPos q => subclass q PStr | _ => false end.
Lemma filter_none d : (forall k p, ~ In (k, VPos p) d) -> filter positional d = nil.
Proof.
  induction d as [|[k v] d IH]; [reflexivity|]. intros H. cbn [filter]. unfold positional at 1. cbn [snd].
  destruct v as [s|p|o]; try (apply IH; intros k' p' I; apply (H k' p'); now right). exfalso. apply (H k p). now left.
Qed.
Lemma filter_one t d : (forall k p, ~ In (k, VPos p) d) -> filter positional (set t (VPos PStr) d) = [(t, VPos PStr)].
Proof.
  induction d as [|[k v] d IH]; [reflexivity|]. intros H.
  assert (H' : forall k p, ~ In (k, VPos p) d) by (intros k' p' I; apply (H k' p'); now right). cbn [set].
  destruct (eqb_spec t k) as [->|_]; cbn [filter].
  - change (positional (k, VPos PStr)) with true. cbv iota. now rewrite filter_none.
  - unfold positional at 1. cbn [snd]. destruct v as [s|p|o]; [now apply IH|exfalso; apply (H k p); now left|now apply IH].
Qed.
Lemma In_set_key (t k : str) (w v : aval) (d : attrs) : In (k, v) (set t w d) -> k = t \/ exists v', In (k, v') d.
Proof.
  induction d as [|[k' v'] d IH]; cbn [set].
  - intros [E|[]]. left. congruence.
  - destruct (eqb_spec t k') as [->|_]; intros [E|I].
    + left. congruence.
    + right. exists v. now right.
    + right. exists v'. left. congruence.
    + destruct (IH I) as [->|(u & I')]; [now left|right; exists u; now right].
Qed.
Lemma find_positional (d : attrs) : (forall k v, In (k, v) d -> ~ In 60%N k) ->
  find_item d (RPos PStr) (Some (lit "tex")) =
  match filter (fun kv => endswith (fst kv) (lit "tex")) (filter positional d), filter positional d with
  | kv :: _, _ => Some kv | nil, kv :: _ => Some kv | nil, nil => None end.
Proof.
  intros H. unfold find_item. change (norm_target (Some (lit "tex"))) with (Some (lit "tex")). cbv iota beta zeta.
  destruct (lookup (join sep [areq_str (RPos PStr); lit "tex"]) d) as [v|] eqn:E.
  2:{ change (filter (fun kv : str * aval => match snd kv with VPos q => subclass q PStr | _ => false end) d) with (filter positional d).
      change (lit "tex") with [116%N; 101%N; 120%N]. cbv iota beta. reflexivity. }
  exfalso. apply lookup_In in E. apply (H _ _ E). now left.
Qed.
Lemma panel_runs d d' x k : ~ In (lit "self") (keys d) -> tex_percentwidth to_float times100 d (Some (lit ".tex")) true = Ok d' ->
  find_item d' (RPos PStr) (Some (lit "tex")) = Some (k, VPos PStr) -> strip_attr k = k -> k <> lit "self" -> exists r, panel_tex d x = Ok r.
Proof.
  intros Hs Hd Hf Hk Hn. unfold panel_tex, Panel.panel_tex, copy.
  destruct (has (lit "self") d) eqn:E; [exfalso; apply Hs; now apply has_keys|]. cbn [bind]. rewrite Hd. cbn [bind].
  unfold tex_env, tex_params.
  change (lookup (lit "panel") tex_env_arguments) with (Some [RPos PStr]).
  change (lookup (lit "panel") tex_env_optionals) with (@None (list areq)).
  change (negb (has (lit "panel") tex_env_arguments) && negb (has (lit "panel") tex_env_optionals)) with false. cbv iota.
  unfold filter_attrs. change (norm_target (Some (lit "tex"))) with (Some (lit "tex")).
  change (ListUtils.uniq [RPos PStr]) with [RPos PStr]. cbv zeta. cbv iota.
  change (filter_removed [RPos PStr] (Some (lit "tex"))) with (@nil areq).
  change (filter (fun a : areq => negb (mem a [])) [RPos PStr]) with [RPos PStr]. cbn [fold_left]. rewrite Hf.
  cbn [set]. unfold strip_attrs, copy. unfold has. cbn [lookup]. rewrite (proj2 (eqb_neq (lit "self") k)) by congruence.
  cbn [bind keys map fst filter]. unfold is_target_specific. rewrite Hk, eqb_refl.
  cbn [negb map filter mem existsb fold_left lookup]. rewrite eqb_refl. cbn [set length Nat.eqb bind]. eexists. reflexivity.
Qed.
(** C89: a width in percent is the argument of the environment, as a part of the width of the text. *)
Theorem C89_width :
  forall (d : attrs) x w q n c t, named d -> has_percent to_float d (Some (lit ".tex")) w q -> Spec.Width.class_of q n c t ->
    exists r, panel_tex d x = Ok r /\ without_empty_lines (panel t x) r.
Proof.
  intros d x w q n c t (Hp & Ha & Hs) ((kv & Hf) & Hg & Hpc & Hq) Hc.
  assert (Ht : strip_attr t = t /\ t <> lit "self" /\ ~ In 60%N t)
    by (destruct Hc; (split; [vm_compute; reflexivity|split; [discriminate|cbn; intuition discriminate]])).
  destruct Ht as (Ht & Hn & Hl).
  assert (Hd : tex_percentwidth to_float times100 d (Some (lit ".tex")) true = Ok (set t (VPos PStr) d)).
  { unfold tex_percentwidth. rewrite Hf, Hg. cbn [value_percentage]. rewrite (percentage_q to_float times100 w q Hpc Hq). cbn [bind].
    destruct (class_cases q n c t Hc) as (Hpos & _ & Hw). rewrite Z.abs_eq by lia. rewrite Hw. reflexivity. }
  assert (Hi : find_item (set t (VPos PStr) d) (RPos PStr) (Some (lit "tex")) = Some (t, VPos PStr)).
  { rewrite find_positional.
    - rewrite filter_one by exact Hp. cbn [filter]. destruct (endswith _ _); reflexivity.
    - intros k v I. apply In_set_key in I as [->|[v' I]]; [exact Hl|]. eapply Ha; eauto. }
  destruct (panel_runs d _ x t Hs Hd Hi Ht Hn) as [r Hr]. exists r. split; [exact Hr|].
  destruct (panel_tex_join d x r Hr) as (d' & k & v & Hd' & Hi' & ->). rewrite Hd in Hd'. injection Hd' as <-.
  rewrite Hi in Hi'. injection Hi' as <- <-. rewrite Ht. apply L_lines, panel_ne.
Qed.
(** C89: a panel without a width cannot be rendered. *)
Theorem C89_needs_width :
  forall (d : attrs) x, named d -> find_item d (RKey (lit "width")) (Some (lit ".tex")) = None -> panel_tex d x = Raise OtherError.
Proof.
  intros d x (Hp & Ha & Hs) Hw. unfold panel_tex, Panel.panel_tex, copy.
  destruct (has (lit "self") d) eqn:E; [exfalso; apply Hs; now apply has_keys|]. cbn [bind].
  unfold tex_percentwidth. rewrite Hw. cbn [bind]. unfold tex_env, tex_params.
  change (lookup (lit "panel") tex_env_arguments) with (Some [RPos PStr]).
  change (lookup (lit "panel") tex_env_optionals) with (@None (list areq)).
  change (negb (has (lit "panel") tex_env_arguments) && negb (has (lit "panel") tex_env_optionals)) with false. cbv iota.
  unfold filter_attrs. change (norm_target (Some (lit "tex"))) with (Some (lit "tex")).
  change (ListUtils.uniq [RPos PStr]) with [RPos PStr]. cbv zeta. cbv iota.
  change (filter_removed [RPos PStr] (Some (lit "tex"))) with (@nil areq).
  change (filter (fun a : areq => negb (mem a [])) [RPos PStr]) with [RPos PStr]. cbn [fold_left].
  rewrite find_positional by exact Ha. rewrite filter_none by exact Hp. reflexivity.
Qed.
End Panel.

(** Finding: with a positional attribute, the width is not the argument of the panel: @panel[left width=50%]. *)
Definition half (s : str) : option num := if eqb s (lit "50") then Some (Fin 50) else None.
Theorem C89_width_refuted :
  ~ (forall to_float times100 (d : attrs) x w q n c t, has_percent to_float d (Some (lit ".tex")) w q -> Spec.Width.class_of q n c t ->
       exists r, panel_tex to_float times100 d x = Ok r /\ without_empty_lines (panel t x) r).
Proof.
  intros H.
  destruct (H half (fun x => x) [(lit "left", VPos PStr); (lit "width", VStr (lit "50%"))] (lit "a") (lit "50%") 50%Q 50 (lit "w50") (lit "0.49\textwidth")) as (r & E & W).
  - split; [eexists; vm_compute; reflexivity|]. split; [vm_compute; reflexivity|]. split; [cbn; tauto|vm_compute; reflexivity].
  - constructor. split; vm_compute; [reflexivity|discriminate].
  - vm_compute in E. injection E as <-.
    specialize (W [lit "\begin{panel}{0.49\textwidth}"; lit "a"; lit "\end{panel}"]).
    assert (P : pieces_of 10%N (panel (lit "0.49\textwidth") (lit "a")) [lit "\begin{panel}{0.49\textwidth}"; lit "a"; lit "\end{panel}"])
      by (apply pieces_of_split; vm_compute; reflexivity).
    apply W, pieces_of_split in P. vm_compute in P. discriminate.
Qed.
(** Finding: a line with white space only stays, and ends the paragraph in tex. *)
Theorem C89_blank_lines_refuted :
  ~ (forall to_float times100 d x r, panel_tex to_float times100 d x = Ok r -> forall a b, r <> a ++ [10%N; 32%N; 10%N] ++ b).
Proof.
  intros H. eapply (H half (fun x => x) [(lit "width", VStr (lit "50%"))] (lit "a" ++ [10%N; 32%N; 10%N] ++ lit "b")); [vm_compute; reflexivity|].
  instantiate (2 := lit "\begin{panel}{0.49\textwidth}" ++ [10%N] ++ lit "a"). instantiate (1 := lit "b" ++ [10%N] ++ lit "\end{panel}").
  vm_compute. reflexivity.
Qed.
(** A panel of half of the width with two paragraphs *)
Example C89_ex :
  named [(lit "width", VStr (lit "50%"))] /\
  has_percent half [(lit "width", VStr (lit "50%"))] (Some (lit ".tex")) (lit "50%") 50%Q /\
  panel_tex half (fun x => x) [(lit "width", VStr (lit "50%"))] (lit "a" ++ [10%N; 10%N] ++ lit "b") =
    Ok (lit "\begin{panel}{0.49\textwidth}" ++ [10%N] ++ lit "a" ++ [10%N] ++ lit "b" ++ [10%N] ++ lit "\end{panel}").
Proof.
  split; [split; [|split]|split].
  - intros k p [E|[]]. discriminate.
  - intros k v [E|[]]. injection E as <- _. cbn. intuition discriminate.
  - cbn. intuition discriminate.
  - split; [eexists; vm_compute; reflexivity|]. split; [vm_compute; reflexivity|]. split; [cbn; tauto|vm_compute; reflexivity].
  - vm_compute. reflexivity.
Qed.
