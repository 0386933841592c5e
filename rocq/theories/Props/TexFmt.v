(** C69: the rendering of tags in tex *)
From Coq Require Import List Bool Arith NArith Lia.
From Verif.Base Require Import Str StrFacts Dict DictFacts Result PyText PyTextFacts.
From Verif.Model Require Import Attributes Formats TagParser TexFmt.
From Verif.Spec Require Import Attributes TagParser TexFmt.
From Verif.Proof Require Attributes.
From Verif.Proof Require Import TagParser.
Import ListNotations.

(** ** Balanced braces, as a scan *)
Fixpoint scan (d : nat) (x : str) : option nat :=
  match x with
  | nil => Some d
  | c :: r => if N.eqb c 123 then scan (S d) r
              else if N.eqb c 125 then match d with O => None | S d' => scan d' r end
              else scan d r
  end.
Lemma scan_app x y d : scan d (x ++ y) = match scan d x with Some e => scan e y | None => None end.
Proof.
  revert d. induction x as [|c x IH]; intro d; [reflexivity|]. cbn [app scan].
  destruct (N.eqb c 123); [apply IH|]. destruct (N.eqb c 125); [|apply IH]. destruct d; [reflexivity | apply IH].
Qed.
Lemma scan_spec x d e : scan d x = Some e <-> d + opens x = e + closes x /\ forall a b, x = a ++ b -> closes a <= d + opens a.
Proof.
  revert d. induction x as [|c x IH]; intro d.
  - cbn [scan]. split.
    + intros [= ->]. split; [reflexivity|]. intros a b E. symmetry in E. apply app_eq_nil in E as [-> _]. cbn. lia.
    + intros [H _]. cbn in H. f_equal. lia.
  - cbn [scan]. rewrite opens_cons, closes_cons.
    assert (P : forall (q : nat), (forall a b, c :: x = a ++ b -> closes a <= q + opens a) <->
                  (forall a b, x = a ++ b -> closes (c :: a) <= q + opens (c :: a))).
    { intro q. split; intros H a b E.
      - apply (H (c :: a) b). now rewrite E.
      - destruct a as [|u a]; [cbn; lia|]. injection E as <- E. now apply (H a b). }
    rewrite P. clear P.
    assert (Q : forall (q : nat) (a : str), closes (c :: a) <= q + opens (c :: a) <->
                  (if N.eqb c 125 then 1 else 0) + closes a <= q + ((if N.eqb c 123 then 1 else 0) + opens a))
      by (intros; now rewrite opens_cons, closes_cons).
    destruct (N.eqb_spec c 123) as [->|N1].
    { change (N.eqb 123 125) with false in *. cbv iota in *. rewrite (IH (S d)). split; intros [H1 H2]; (split; [lia|]); intros a b E; specialize (H2 a b E);
        [apply (proj2 (Q _ _)) | apply (proj1 (Q _ _)) in H2]; lia. }
    destruct (N.eqb_spec c 125) as [->|N2]; cbv iota in *.
    { destruct d as [|d].
      - split; [discriminate|]. intros [_ H]. specialize (H nil x eq_refl). apply (proj1 (Q _ _)) in H. cbn in H. lia.
      - rewrite (IH d). split; intros [H1 H2]; (split; [lia|]); intros a b E; specialize (H2 a b E);
          [apply (proj2 (Q _ _)) | apply (proj1 (Q _ _)) in H2]; lia. }
    rewrite (IH d). split; intros [H1 H2]; (split; [lia|]); intros a b E; specialize (H2 a b E); [apply (proj2 (Q _ _)) | apply (proj1 (Q _ _)) in H2]; lia.
Qed.
Lemma balanced_scan x : balanced x <-> scan 0 x = Some 0.
Proof. rewrite scan_spec. unfold balanced. cbn [Nat.add]. split; intros [H1 H2]; split; auto. Qed.
Lemma scan_balanced x d : balanced x -> scan d x = Some d.
Proof.
  intro B. apply scan_spec. destruct B as [B1 B2]. split; [lia|]. intros a b E. specialize (B2 a b E). lia.
Qed.
Definition neutral (x : str) : Prop := forall d, scan d x = Some d.
Lemma neutral_balanced x : neutral x <-> balanced x.
Proof. split; [intro H; apply balanced_scan, H | intros H d; now apply scan_balanced]. Qed.
Lemma neutral_app x y : neutral x -> neutral y -> neutral (x ++ y).
Proof. intros X Y d. now rewrite scan_app, X, Y. Qed.
Lemma neutral_braces x : neutral x -> neutral (lit "{" ++ x ++ lit "}").
Proof. intros X d. change (scan (S d) (x ++ lit "}") = Some d). now rewrite scan_app, X. Qed.
Lemma neutral_wrap x y : neutral x -> neutral y -> neutral (lit "{" ++ x ++ lit "}" ++ y).
Proof. intros X Y d. change (scan (S d) (x ++ lit "}" ++ y) = Some d). rewrite scan_app, X. apply Y. Qed.
Lemma neutral_plain x : no_braces x -> neutral x.
Proof.
  intros [A B]. induction x as [|c x IH]; intro d; [reflexivity|]. cbn [scan].
  destruct (N.eqb_spec c 123) as [->|]; [exfalso; apply A; now left|].
  destruct (N.eqb_spec c 125) as [->|]; [exfalso; apply B; now left|].
  apply IH; intro I; [apply A | apply B]; now right.
Qed.
Lemma no_braces_app x y : no_braces (x ++ y) <-> no_braces x /\ no_braces y.
Proof. unfold no_braces. rewrite !in_app_iff. tauto. Qed.
Lemma no_braces_incl x y : incl x y -> no_braces y -> no_braces x.
Proof. intros I [A B]. split; intro H; [apply A | apply B]; now apply I. Qed.
(** Removing white space does not matter *)
Lemma scan_strip p x d : (forall c, p c = true -> c <> 123%N /\ c <> 125%N) -> scan d (strip_p p x) = scan d x.
Proof.
  intro P. destruct (strip_p_decomp p x) as (a & b & E & A & B & _).
  assert (S : forall w, forallb p w = true -> neutral w).
  { intros w W. apply neutral_plain. split; intro I; rewrite forallb_forall in W; apply W, P in I; now destruct I. }
  transitivity (scan d (a ++ strip_p p x ++ b)); [|now rewrite <- E]. rewrite !scan_app, (S a A), scan_app.
  destruct (scan d (strip_p p x)) as [e|]; [|reflexivity]. now rewrite (S b B).
Qed.

(** ** Attributes *)
(** What is written of an entry *)
Definition entry_plain (kv : str * aval) : Prop := no_braces (fst kv) /\ no_braces (aval_str (snd kv)).
Definition plain_dict (d : attrs) : Prop := Forall entry_plain d.
Lemma strip_attr_incl x : incl (strip_attr x) x.
Proof.
  destruct (Proof.Attributes.strip_attr_cases x) as [->|(t & _ & E)]; [apply incl_refl|].
  rewrite E at 2. unfold for_target. intros c C. apply in_or_app. now left.
Qed.
Lemma set_plain k v d : entry_plain (k, v) -> plain_dict d -> plain_dict (set k v d).
Proof.
  intros E. induction 1 as [|[k' v'] d P D IH]; [constructor; [exact E | constructor]|].
  cbn [set]. destruct (eqb_spec k k') as [->|].
  - constructor; [|exact D]. split; [exact (proj1 P) | exact (proj2 E)].
  - constructor; assumption.
Qed.
Lemma update_plain d l : plain_dict d -> plain_dict l -> plain_dict (update d l).
Proof.
  intros D L. unfold update. revert d D. induction L as [|[k v] l E L IH]; intros d D; [exact D|].
  cbn [fold_left fst snd]. apply IH. now apply set_plain.
Qed.
Lemma span_incl {A} (f : A -> bool) l : incl (fst (span f l)) l /\ incl (snd (span f l)) l.
Proof.
  destruct (Proof.Attributes.span_decomp f l) as [E _]. split; intros x X; rewrite E; apply in_or_app; tauto.
Qed.
Lemma match_quoted_incl q x v r : match_quoted q x = Some (v, r) -> incl v x /\ incl r x.
Proof.
  unfold match_quoted. destruct x as [|c x]; [discriminate|]. destruct (N.eqb_spec c q) as [->|]; [|discriminate].
  pose proof (span_incl (fun c => negb (N.eqb c q)) x) as [S1 S2].
  destruct (span _ x) as [body [|q' rest]]; [discriminate|]. intros [= <- <-]. cbn [fst snd] in *. split.
  - intros y [<-|Y]; [now left|]. right. apply in_app_or in Y as [Y|[<-|[]]]; [now apply S1 | apply S2; now left].
  - intros y Y. right. apply S2. now right.
Qed.
Lemma match_plus_incl f x v r : match_plus f x = Some (v, r) -> incl v x /\ incl r x.
Proof.
  unfold match_plus. pose proof (span_incl f x) as [S1 S2]. destruct (span f x) as [[|c w] rest]; [discriminate|].
  intros [= <- <-]. now split.
Qed.
Lemma orelse_incl (a b : option (str * str)) x :
  (forall v r, a = Some (v, r) -> incl v x /\ incl r x) -> (forall v r, b = Some (v, r) -> incl v x /\ incl r x) ->
  forall v r, orelse a b = Some (v, r) -> incl v x /\ incl r x.
Proof. intros A B v r. destruct a as [[v' r']|]; cbn [orelse]; [intros [= <- <-]; now apply A | apply B]. Qed.
Lemma match_value_incl x v r : match_value x = Some (v, r) -> incl v x /\ incl r x.
Proof.
  revert v r. apply orelse_incl; [apply match_quoted_incl | apply orelse_incl; [apply match_quoted_incl | apply match_plus_incl]].
Qed.
Lemma match_position_incl x v r : match_position x = Some (v, r) -> incl v x /\ incl r x.
Proof.
  revert v r. apply orelse_incl; [apply match_quoted_incl | apply orelse_incl; [apply match_quoted_incl | apply match_plus_incl]].
Qed.
Lemma match_keyval_incl uw x k v r : match_keyval uw x = Some (k, v, r) -> incl k x /\ incl v x /\ incl r x.
Proof.
  unfold match_keyval. destruct (match_plus (key_char uw) x) as [[key r1]|] eqn:E; [|discriminate].
  apply match_plus_incl in E as [E1 E2].
  pose proof (span_incl rx_space r1) as [_ S1]. destruct (snd (span rx_space r1)) as [|c r2]; [discriminate|].
  destruct (N.eqb c 61); [|discriminate].
  pose proof (span_incl rx_space r2) as [_ S2]. destruct (match_value (snd (span rx_space r2))) as [[v' rest]|] eqn:V; [|discriminate].
  apply match_value_incl in V as [V1 V2]. intros [= <- <- <-].
  assert (R2 : incl r2 x) by (intros y Y; apply E2, S1; now right).
  split; [exact E1|]. split; intros y Y; apply R2, S2; [now apply V1 | now apply V2].
Qed.
Lemma strip_c_incl q x : incl (strip_c q x) x.
Proof.
  unfold strip_c. destruct (strip_p_decomp (N.eqb q) x) as (a & b & E & _). intros c C. rewrite E.
  apply in_or_app. right. apply in_or_app. now left.
Qed.
Lemma ptype_plain p : no_braces (ptype_str p).
Proof.
  assert (H : forallb (fun c => negb (N.eqb c 123) && negb (N.eqb c 125)) (ptype_str p) = true) by (destruct p; reflexivity).
  rewrite forallb_forall in H. split; intro I; apply H in I; discriminate I.
Qed.
Lemma load_pairs_plain uw pv f x : no_braces x -> plain_dict (load_pairs uw pv f x).
Proof.
  revert x. induction f as [|f IH]; intros x X; [constructor|]. cbn [load_pairs].
  destruct x as [|c tail]; [constructor|].
  destruct (match_keyval uw (c :: tail)) as [[[k v] rest]|] eqn:K.
  - apply match_keyval_incl in K as (K1 & K2 & K3). constructor; [|apply IH; eapply no_braces_incl; eassumption].
    split; cbn [fst snd aval_str]; eapply no_braces_incl; try exact X; [exact K1|].
    intros y Y. apply K2. eapply strip_c_incl, strip_c_incl. exact Y.
  - destruct (match_position (c :: tail)) as [[p rest]|] eqn:P.
    + apply match_position_incl in P as [P1 P2]. constructor; [|apply IH; eapply no_braces_incl; eassumption].
      split; cbn [fst snd aval_str]; [|apply ptype_plain]. eapply no_braces_incl; [|exact X].
      intros y Y. apply P1. eapply strip_c_incl, strip_c_incl. exact Y.
    + apply IH. eapply no_braces_incl; [|exact X]. intros y Y. now right.
Qed.
Lemma load_plain uw pv x : no_braces x -> plain_dict (load uw pv nil x).
Proof. intro X. apply update_plain; [constructor | now apply load_pairs_plain]. Qed.
Lemma find_item_in d a t k v : find_item d a t = Some (k, v) -> In (k, v) d.
Proof.
  assert (L : forall x, match lookup x d with Some v => Some (x, v) | None => None end = Some (k, v) -> In (k, v) d).
  { intros x. destruct (lookup x d) eqn:E; [|discriminate]. intros [= <- <-]. now apply lookup_In. }
  unfold find_item.
  assert (G : match a with
      | RKey k => match lookup k d with Some v => Some (k, v) | None => None end
      | RPos p =>
          let items := filter (fun kv => match snd kv with VPos q => subclass q p | _ => false end) d in
          let target_items := match norm_target t with
            | Some ((_ :: _) as t) => filter (fun kv => endswith (fst kv) t) items
            | _ => filter (fun kv => negb (is_target_specific (fst kv))) items
            end in
          match target_items, items with kv :: _, _ => Some kv | nil, kv :: _ => Some kv | nil, nil => None end
      end = Some (k, v) -> In (k, v) d).
  { destruct a as [x|p]; [apply L|]. cbv zeta. set (items := filter _ d).
    assert (I : forall kv, In kv items -> In kv d) by (intros kv H; now apply filter_In in H).
    destruct (match norm_target t with Some ((_ :: _) as t) => _ | _ => _ end) as [|kv r] eqn:E.
    - destruct items as [|kv r]; [discriminate|]. intros [= ->]. apply I. now left.
    - intros [= ->]. apply I.
      assert (F : In (k, v) ((k, v) :: r)) by now left. rewrite <- E in F.
      destruct (norm_target t) as [[|? ?]|]; now apply filter_In in F. }
  destruct (norm_target t) as [u|] eqn:T; [|exact G].
  destruct (lookup (join sep [areq_str a; u]) d) as [w|] eqn:W; [|exact G].
  intros [= <- <-]. now apply lookup_In.
Qed.
Lemma strip_attrs_plain d o : plain_dict d -> strip_attrs d = Ok o -> plain_dict o.
Proof.
  intros D. unfold strip_attrs, copy. destruct (has (lit "self") d); [discriminate|]. cbn [bind]. intros [= <-].
  set (ks := filter _ _). assert (N : plain_dict nil) by constructor. revert N. generalize (@nil (str * aval)).
  induction ks as [|k ks IH]; intros acc A; [exact A|]. cbn [fold_left]. apply IH.
  destruct (lookup k d) as [v|] eqn:E; [|exact A]. apply lookup_In in E. apply set_plain; [|exact A].
  pose proof (proj1 (Forall_forall _ _) D _ E) as [P Q]. split; [|exact Q]. eapply no_braces_incl; [apply strip_attr_incl | exact P].
Qed.
Lemma filter_plain d r t sort o : plain_dict d -> filter_attrs d r t sort true = Ok o -> plain_dict o.
Proof.
  intros D. unfold filter_attrs. apply strip_attrs_plain. set (rs := filter _ _).
  assert (N : plain_dict nil) by constructor. revert N. generalize (@nil (str * aval)).
  induction rs as [|a rs IH]; intros acc A; [exact A|]. cbn [fold_left]. apply IH.
  destruct (find_item d a (norm_target t)) as [[k v]|] eqn:E; [|exact A]. apply find_item_in in E.
  apply set_plain; [|exact A]. exact (proj1 (Forall_forall _ _) D _ E).
Qed.
Lemma neutral_concat l : Forall neutral l -> neutral (concat l).
Proof. induction 1 as [|x l X _ IH]; [intro d; reflexivity | now apply neutral_app]. Qed.
Lemma neutral_arguments o : plain_dict o -> neutral (tex_arguments o).
Proof.
  intro O. unfold tex_arguments. apply neutral_concat. induction O as [|[k v] o [K V] _ IH]; [constructor|].
  cbn [map]. constructor; [|exact IH]. cbn [fst snd] in K, V. unfold tex_arg. cbn [fst snd].
  destruct v; apply neutral_braces, neutral_plain; assumption.
Qed.
Lemma no_braces_lit x : forallb (fun c => negb (N.eqb c 123) && negb (N.eqb c 125)) x = true -> no_braces x.
Proof. intro H. rewrite forallb_forall in H. split; intro I; apply H in I; discriminate I. Qed.
Lemma no_braces_join s l : no_braces s -> Forall no_braces l -> no_braces (join s l).
Proof.
  intros S. induction 1 as [|x l X L IH]; [split; intros []|]. destruct l as [|y l]; [exact X|].
  rewrite join_cons by discriminate. rewrite !no_braces_app. now repeat split; try apply X; try apply S; try apply IH.
Qed.
Lemma neutral_optionals o : plain_dict o -> neutral (tex_optionals o).
Proof.
  intro O. unfold tex_optionals. destruct o as [|e o]; [intro d; reflexivity|].
  apply neutral_plain. rewrite !no_braces_app. split; [now apply no_braces_lit|]. split; [|now apply no_braces_lit].
  apply no_braces_join; [now apply no_braces_lit|]. revert O. generalize (e :: o). clear.
  induction 1 as [|[k v] o [K V] _ IH]; [constructor|]. cbn [map]. constructor; [|exact IH].
  unfold tex_opt. cbn [fst snd] in *.
  assert (G : no_braces (k ++ lit "=" ++ aval_str v)).
  { rewrite !no_braces_app. split; [exact K|]. split; [now apply no_braces_lit | exact V]. }
  destruct v; [exact G | exact K | exact G].
Qed.
Lemma neutral_params args opts sort name d p : plain_dict d -> tex_params args opts sort name d = Ok p -> neutral p.
Proof.
  intros D. unfold tex_params. destruct (negb (has name args) && negb (has name opts)); [discriminate|].
  destruct (lookup name args) as [r|].
  - destruct (filter_attrs d (Some r) (Some (lit "tex")) true true) as [f|] eqn:F; [|discriminate]. cbn [bind].
    destruct (Nat.eqb (length f) (length r)); [|discriminate]. cbn [bind].
    pose proof (neutral_arguments f (filter_plain _ _ _ _ _ D F)) as A.
    destruct (lookup name opts) as [r'|].
    + destruct (filter_attrs d (Some r') (Some (lit "tex")) sort true) as [g|] eqn:G; [|discriminate]. cbn [bind].
      intros [= <-]. apply neutral_app; [exact A|]. apply neutral_optionals. eapply filter_plain; [exact D | exact G].
    + cbn [bind]. intros [= <-]. now rewrite app_nil_r.
  - cbn [bind]. destruct (lookup name opts) as [r'|].
    + destruct (filter_attrs d (Some r') (Some (lit "tex")) sort true) as [g|] eqn:G; [|discriminate]. cbn [bind].
      intros [= <-]. apply neutral_optionals. eapply filter_plain; [exact D | exact G].
    + cbn [bind]. intros [= <-] e. reflexivity.
Qed.
Lemma params_known args opts sort name d p : tex_params args opts sort name d = Ok p -> In name (keys args ++ keys opts).
Proof.
  unfold tex_params, has. intro H. apply in_or_app.
  destruct (lookup name args) eqn:A; [left; exact (in_map fst _ _ (lookup_In _ _ _ A))|].
  destruct (lookup name opts) eqn:B; [right; exact (in_map fst _ _ (lookup_In _ _ _ B))|]. discriminate H.
Qed.
Lemma known_plain l name : forallb (forallb (fun c => negb (N.eqb c 123) && negb (N.eqb c 125))) l = true -> In name l -> no_braces name.
Proof. intros H I. rewrite forallb_forall in H. apply no_braces_lit. now apply H. Qed.
Lemma neutral_cmd name d x o : plain_dict d -> neutral x -> cmd name d x = Ok o -> neutral o.
Proof.
  intros D X. unfold cmd, tex_cmd. destruct (tex_params _ _ _ _ _) as [p|] eqn:P; [|discriminate]. cbn [bind indented].
  intros [= <-]. pose proof (params_known _ _ _ _ _ _ P) as K. pose proof (neutral_params _ _ _ _ _ _ D P) as Np.
  assert (Nn : no_braces name) by (eapply known_plain; [|exact K]; reflexivity).
  change (neutral (lit "\" ++ name ++ p ++ (lit "{" ++ x ++ lit "}"))).
  apply neutral_app; [now apply neutral_plain, no_braces_lit|]. apply neutral_app; [now apply neutral_plain|].
  apply neutral_app; [exact Np | now apply neutral_braces].
Qed.
Lemma neutral_nl : neutral [10%N]. Proof. intro d. reflexivity. Qed.
Lemma neutral_env name d x m o : plain_dict d -> neutral x -> env name d x m = Ok o -> neutral o.
Proof.
  intros D X. unfold env, tex_env. destruct (tex_params _ _ _ _ _) as [p|] eqn:P; [|discriminate]. cbn [bind indented].
  intros [= <-]. pose proof (params_known _ _ _ _ _ _ P) as K. pose proof (neutral_params _ _ _ _ _ _ D P) as Np.
  assert (Nn : no_braces name) by (eapply known_plain; [|exact K]; reflexivity).
  set (c1 := if startswith x [10%N] then x else 10%N :: x).
  assert (C1 : neutral c1) by (unfold c1; destruct (startswith x [10%N]); [exact X | exact (neutral_app _ _ neutral_nl X)]).
  set (c2 := if endswith c1 [10%N] then c1 else c1 ++ [10%N]).
  assert (C2 : neutral c2) by (unfold c2; destruct (endswith c1 [10%N]); [exact C1 | exact (neutral_app _ _ C1 neutral_nl)]).
  set (text := lit "\begin" ++ lit "{" ++ name ++ lit "}" ++ p ++ (if m then lit " %" else []) ++ c2 ++ lit "\end{" ++ name ++ lit "}").
  assert (T : neutral text).
  { unfold text. apply neutral_app; [now apply neutral_plain, no_braces_lit|].
    apply (neutral_wrap name _ (neutral_plain _ Nn)).
    apply neutral_app; [exact Np|]. apply neutral_app; [destruct m; intro e; reflexivity|]. apply neutral_app; [exact C2|].
    change (neutral (lit "\end" ++ lit "{" ++ name ++ lit "}")). apply neutral_app; [now apply neutral_plain, no_braces_lit|].
    now apply neutral_braces, neutral_plain. }
  destruct m; [exact T|]. change (neutral ([10%N] ++ text ++ [10%N])).
  apply neutral_app; [exact neutral_nl|]. exact (neutral_app _ _ T neutral_nl).
Qed.

(** ** Parts of a text *)
Lemma split_from_join sep : sep <> nil -> forall x k, k <= length x -> join sep (split_from sep k x) = skipn k x.
Proof.
  intro S. induction x as [|c x IH]; intros k K; [destruct k; [reflexivity | cbn in K; lia]|].
  cbn [split_from]. destruct k as [|k]; [|cbn [skipn]; apply IH; cbn in K; lia].
  destruct (startswith (c :: x) sep) eqn:W.
  - apply startswith_iff in W as [r W]. destruct sep as [|s0 sep0]; [contradiction|]. injection W as <- W.
    cbn [length]. rewrite Nat.sub_succ, Nat.sub_0_r. rewrite join_cons by apply split_from_nonnil.
    rewrite (IH (length sep0)) by (rewrite W, app_length; lia). rewrite W, skipn_app, skipn_all, Nat.sub_diag. reflexivity.
  - specialize (IH 0 (Nat.le_0_l _)). cbn [skipn] in IH. pose proof (split_from_nonnil sep x 0) as N.
    destruct (split_from sep 0 x) as [|w ws]; [contradiction|]. cbn [skipn].
    destruct ws as [|w' ws]; [cbn [join] in *; now rewrite IH|].
    rewrite join_cons in IH |- * by discriminate. rewrite <- IH. reflexivity.
Qed.
Lemma split_s_join sep x : sep <> nil -> join sep (split_s sep x) = x.
Proof. intro S. unfold split_s. rewrite split_from_join by (auto; lia). reflexivity. Qed.
Lemma split_amp x y : ~ In 38%N x -> split_s (lit "&&") (x ++ lit "&&" ++ y) = x :: split_s (lit "&&") y.
Proof.
  intro N. apply split_s_first; [discriminate|]. intros a b E. destruct (le_lt_dec (length x) (length a)) as [L|L]; [exact L|].
  exfalso. apply N. assert (W : nth_error (x ++ lit "&&" ++ y) (length a) = Some 38%N).
  { rewrite E, nth_error_app2, Nat.sub_diag by lia. reflexivity. }
  rewrite nth_error_app1 in W by exact L. exact (nth_error_In _ _ W).
Qed.
Lemma split_two x y : ~ In 38%N x -> ~ In 38%N y -> split_s (lit "&&") (x ++ lit "&&" ++ y) = [x; y].
Proof.
  intros X Y. rewrite split_amp by exact X. rewrite split_s_none; [reflexivity|].
  destruct (contains y (lit "&&")) eqn:C; [|reflexivity]. apply contains_iff in C as (a & b & ->).
  exfalso. apply Y. apply in_or_app. right. now left.
Qed.

(** ** Braces of the rendering *)
Section Braces.
Variables (lower : str -> str) (uw : char -> bool) (pv : str -> ptype) (inactive : list str) (block : content -> bool).
Variable other : bool -> content -> result str.
Let tex := tex_fmt lower uw pv inactive block other.
Lemma neutral_ensure m x o : neutral x -> ensure m x = Ok o -> neutral o.
Proof.
  unfold ensure. intros X. destruct m; [now intros [= <-]|]. apply neutral_cmd; [constructor | exact X].
Qed.
Lemma attributes_plain a : plain_attrs a -> plain_dict (attributes_of uw pv a).
Proof. destruct a as [x|]; [apply load_plain | constructor]. Qed.
Lemma space_plain c : is_space c = true -> c <> 123%N /\ c <> 125%N.
Proof. intro H. split; intros ->; discriminate H. Qed.
Lemma neutral_strip x : neutral x -> neutral (strip x).
Proof. intros X d. unfold strip. rewrite scan_strip by apply space_plain. apply X. Qed.
Lemma neutral_eq name d b m x o : plain_dict d -> neutral x -> eq_tex uw pv name d b m x = Ok o -> neutral o.
Proof.
  intros D X. unfold eq_tex. set (x1 := strip_p _ x).
  assert (X1 : neutral x1).
  { intro e. unfold x1. rewrite scan_strip; [apply X|]. intros c C. split; intros ->; discriminate C. }
  assert (G : forall y, neutral y ->
    (do x <- (if has (lit "bold") d || eqb name (lit "termb") then cmd (lit "boldsymbol") nil y else Ok y) ;
     let x := strip x in
     if m then Ok x
     else if has (lit "env") d || b then
       match get d (RKey (lit "env")) (Some (lit ".tex")) (VStr nil) with
       | VStr nil => env (lit "align*") d x true
       | VStr e => env e d x true
       | _ => Raise OtherError
       end
     else cmd (lit "ensuremath") d x) = Ok o -> neutral o).
  { intros y Y.
    assert (B : forall z, (if has (lit "bold") d || eqb name (lit "termb") then cmd (lit "boldsymbol") nil y else Ok y) = Ok z -> neutral z).
    { intros z. destruct (has (lit "bold") d || eqb name (lit "termb")); [apply neutral_cmd; [constructor | exact Y] | now intros [= <-]]. }
    destruct (if has (lit "bold") d || eqb name (lit "termb") then cmd (lit "boldsymbol") nil y else Ok y) as [z|]; [|discriminate].
    specialize (B z eq_refl). apply neutral_strip in B. cbn [bind]. cbv zeta. destruct m; [now intros [= <-]|].
    destruct (has (lit "env") d || b); [|now apply neutral_cmd].
    destruct (get d (RKey (lit "env")) (Some (lit ".tex")) (VStr nil)) as [[|c e]| |]; try discriminate; now apply neutral_env. }
  destruct (lookup (lit "color") d) as [[v| |]|] eqn:C; try discriminate; [|exact (G x1 X1)].
  destruct (cmd (lit "textcolor") (load uw pv nil v) x1) as [y|] eqn:Y; [|discriminate]. cbn [bind]. apply G.
  eapply neutral_cmd; [|exact X1|exact Y]. apply load_plain.
  exact (proj2 (proj1 (Forall_forall _ _) D _ (lookup_In _ _ _ C))).
Qed.
Hypothesis other_ok : forall m t o, braces_ok t -> other m t = Ok o -> balanced o.
Lemma tex_scan c : braces_ok c -> forall m o, tex m c = Ok o -> forall d, (forall e, scan d (direct c) = Some e -> scan d o = Some e).
Proof.
  induction c as [s|name a c IH|l IH] using content_ind'; intros B m o H d e.
  - cbn in H. injection H as <-. trivial.
  - cbn [direct scan]. intros [= <-]. revert d. change (neutral o). inversion B as [|? ? ? B1 B2 B3|]; subst.
    assert (IC : forall m x, tex m c = Ok x -> neutral x).
    { intros m' x X q. apply (IH B3 m' x X). now apply scan_balanced. }
    clear IH. pose proof (attributes_plain a B2) as D. unfold tex in H. cbn [tex_fmt] in H. fold tex in H.
    destruct (class_of lower inactive name) as [k|]; [|exact (IC m o H)].
    destruct (eqb k (lit "body")); [exact (IC m o H)|].
    assert (BI : forall m' (f : str -> result str), (do x <- tex m' c ; f x) = Ok o -> exists x, neutral x /\ f x = Ok o).
    { intros m' f E. destruct (tex m' c) as [x|] eqn:X; [|discriminate E]. exists x. split; [exact (IC m' x X) | exact E]. }
    destruct (eqb k (lit "p")).
    { apply BI in H as (x & X & H). injection H as <-.
      destruct (match c with Tag n _ _ => _ | _ => _ end); [exact X|].
      change (neutral ([10%N] ++ x ++ [10%N])). apply neutral_app; [exact neutral_nl | exact (neutral_app _ _ X neutral_nl)]. }
    destruct (eqb k (lit "sup")).
    { apply BI in H as (x & X & H). eapply neutral_ensure; [|exact H].
      change (neutral (lit "^" ++ lit "{" ++ x ++ lit "}")). apply neutral_app; [intro; reflexivity | now apply neutral_braces]. }
    destruct (eqb k (lit "sub")).
    { apply BI in H as (x & X & H). eapply neutral_ensure; [|exact H].
      change (neutral (lit "_" ++ lit "{" ++ x ++ lit "}")). apply neutral_app; [intro; reflexivity | now apply neutral_braces]. }
    destruct (eqb k (lit "supsub")).
    { destruct c as [s| |]; [|discriminate H|discriminate H].
      destruct (split_s (lit "&&") s) as [|x [|y [|z r]]] eqn:SP; try discriminate H.
      eapply neutral_ensure; [|exact H]. clear H. cbn [direct] in B1.
      assert (E : s = x ++ lit "&&" ++ y).
      { rewrite <- (split_s_join (lit "&&") s) by discriminate. now rewrite SP. }
      assert (N : forall q, scan q x <> None /\ forall p, scan q x = Some p -> scan p y = Some q).
      { intro q. pose proof (scan_balanced _ q B1) as W. rewrite E, scan_app in W. destruct (scan q x) as [p|]; [|discriminate W].
        split; [discriminate|]. intros p' [= <-]. exact W. }
      intro q. change (scan (S q) (strip x ++ lit "}_{" ++ strip y ++ lit "}") = Some q).
      destruct (N (S q)) as [N1 N2]. unfold strip. rewrite scan_app, scan_strip by apply space_plain.
      destruct (scan (S q) x) as [p|] eqn:X; [|contradiction]. specialize (N2 p eq_refl).
      destruct p as [|p]; [|change (scan (S p) (strip_p is_space y ++ lit "}") = Some q);
        rewrite scan_app, scan_strip by apply space_plain; now rewrite N2].
      exfalso. destruct (N q) as [N3 _]. destruct (scan q x) as [p'|] eqn:X'; [|contradiction].
      apply scan_spec in X as [X _], X' as [X' _]. lia. }
    destruct (eqb k (lit "symbol")).
    { destruct c as [s| |]; [|discriminate H|discriminate H]. eapply neutral_ensure; [|exact H].
      apply neutral_app; [intro; reflexivity | now apply neutral_balanced]. }
    destruct (eqb k (lit "verb")).
    { destruct c as [s| |]; [|apply neutral_balanced; exact (other_ok _ _ _ B H)|apply neutral_balanced; exact (other_ok _ _ _ B H)].
      unfold verb_tex in H. cbn [direct] in B1. apply neutral_balanced in B1.
      destruct (eqb name (lit "verbatim")); [eapply (neutral_env (lit "verbatim")); [constructor | exact B1 | exact H]|].
      injection H as <-. unfold tex_verb.
      destruct (negb (mem 124%N s)); [|destruct (negb (mem 33%N s)); [|destruct (negb (mem 94%N s)); [|exact B1]]];
        (apply neutral_app; [intro; reflexivity|]; apply neutral_app; [exact B1 | intro; reflexivity]). }
    destruct (eqb k (lit "eq")).
    { apply BI in H as (x & X & H). eapply neutral_eq; [exact D | exact X | exact H]. }
    destruct (mem k simple_env).
    { apply BI in H as (x & X & H). eapply neutral_env; [exact D | exact X | exact H]. }
    destruct (mem k headings && has (lit "nolabel") (attributes_of uw pv a)).
    { eapply neutral_cmd; [exact D | | exact H]. intro; reflexivity. }
    destruct (lookup k simple_cmd) as [n|].
    { apply BI in H as (x & X & H). eapply neutral_cmd; [exact D | exact X | exact H]. }
    apply neutral_balanced. exact (other_ok _ _ _ B H).
  - cbn [direct]. inversion B as [| |? B1]; subst. unfold tex in H. cbn [tex_fmt] in H. fold tex in H.
    revert o H d e. clear B. induction IH as [|x l X L IHl]; intros o H d e.
    + injection H as <-. trivial.
    + apply Forall_cons_iff in B1 as [B1 B2].
      assert (P0 : forall y, match x with Items _ => Raise TypeError | _ => tex m x end = Ok y -> tex m x = Ok y)
        by (intro y; destruct x; [trivial | trivial | discriminate]).
      destruct (match x with Items _ => _ | _ => _ end) as [p|] eqn:P1; [|discriminate H]. specialize (P0 p eq_refl). rename P0 into P. clear P1. cbn [bind] in H.
      destruct ((fix go (l : list content) : result str := _) l) as [q|] eqn:Q; [|discriminate H]. cbn [bind] in H. injection H as <-.
      cbn [map concat]. rewrite !scan_app. intro E.
      destruct (scan d (direct x)) as [f|] eqn:F; [|discriminate E]. rewrite (X B1 m p P d f F). exact (IHl B2 q eq_refl f e E).
Qed.
End Braces.

(** ** Braces of a source *)
Lemma is_word_plain uw c : is_word uw c = true -> c <> 123%N /\ c <> 125%N.
Proof. intro H. split; intros ->; discriminate H. Qed.
Lemma name_neutral uw name : tag_name uw name -> neutral name.
Proof.
  intros (c & w & -> & A & W). apply neutral_plain. rewrite Forall_forall in W.
  split; (intros [E|I]; [subst c; discriminate A | apply W, is_word_plain in I; tauto]).
Qed.
Lemma attrs_neutral a : plain_attrs a -> neutral (attrs_text a).
Proof. destruct a as [x|]; [apply neutral_plain | intros _ d; reflexivity]. Qed.
Lemma direct_simplify l : direct (simplify l) = concat (map direct l).
Proof. destruct l as [|c [|c' l]]; [reflexivity | cbn; now rewrite app_nil_r | reflexivity]. Qed.
Lemma simplify_braces l : Forall braces_ok l -> braces_ok (simplify l).
Proof. intro H. destruct l as [|c [|c' l]]; [constructor | now inversion H | now constructor]. Qed.
Lemma simplify_attrs l : attrs_ok (simplify l) -> Forall attrs_ok l.
Proof. intro H. destruct l as [|c [|c' l]]; [constructor | constructor; [exact H | constructor] | now inversion H]. Qed.
Lemma text_item_braces s : Forall braces_ok (text_item s) /\ concat (map direct (text_item s)) = s.
Proof.
  unfold text_item. destruct s as [|c s]; [split; [constructor | reflexivity]|].
  split; [repeat constructor | cbn; now rewrite app_nil_r].
Qed.
Lemma items_braces uw verbatim x : forall l, items uw verbatim x = Ok l -> Forall attrs_ok l ->
  Forall braces_ok l /\ forall d e, scan d x = Some e -> scan d (concat (map direct l)) = Some e.
Proof.
  induction x as [x IH] using length_ind. intros l H A.
  apply items_inv in H as [[-> _]|(sofar & name & attrs & opened & rest & i & r & c & l' & -> & Hn & Hw & _ & Hir & Hc & Hr & -> & L1 & L2)].
  - destruct (text_item_braces x) as [B1 B2]. split; [exact B1|]. now rewrite B2.
  - apply Forall_app in A as [_ A]. apply Forall_cons_iff in A as [A A']. inversion A as [|? ? ? Pa Pc|]; subst.
    destruct (IH r L2 l' Hr A') as [R1 R2]. destruct (text_item_braces sofar) as [S1 S2].
    assert (Bi : balanced i).
    { destruct opened; [apply close_brace_iff in Hir as [_ Hi]; [|lia]; now apply inside_1 in Hi|].
      destruct Hir as [-> _]. apply balanced_scan. reflexivity. }
    assert (C : braces_ok c /\ balanced (direct c)).
    { destruct (verbatim name); [subst c; split; [constructor | exact Bi]|].
      rewrite parse_text_items in Hc. destruct (items uw verbatim i) as [li|] eqn:Li; [|discriminate Hc].
      cbn [bind] in Hc. apply Attributes.Ok_inj in Hc. subst c. destruct (IH i L1 li Li (simplify_attrs _ Pc)) as [I1 I2].
      split; [now apply simplify_braces|]. rewrite direct_simplify. apply balanced_scan, I2. now apply balanced_scan. }
    destruct C as [C1 C2]. split.
    + apply Forall_app. split; [exact S1|]. constructor; [now constructor | exact R1].
    + intros d e. rewrite map_app, concat_app, S2. cbn [map direct concat app].
      rewrite !scan_app. destruct (scan d sofar) as [f|]; [|discriminate].
      change ([64%N] ++ name ++ attrs_text attrs ++ brace_text opened ++ rest)
        with (lit "@" ++ name ++ attrs_text attrs ++ brace_text opened ++ rest).
      intro E. apply R2. revert E.
      change (scan f (64%N :: name ++ attrs_text attrs ++ brace_text opened ++ rest)) with (scan f (name ++ attrs_text attrs ++ brace_text opened ++ rest)).
      rewrite scan_app, (name_neutral _ _ Hn), scan_app, (attrs_neutral _ Pa).
      destruct opened.
      * apply close_brace_iff in Hir as [-> _]; [|lia]. cbn [brace_text app scan]. change (N.eqb 123 123) with true. cbv iota.
        rewrite scan_app, (scan_balanced _ (S f) Bi). trivial.
      * destruct Hir as [-> ->]. trivial.
Qed.

(** ** Order of the text *)
Lemma subseq_nil_l {A} (l : list A) : subseq nil l.
Proof. induction l; constructor; assumption. Qed.
Lemma subseq_refl {A} (l : list A) : subseq l l.
Proof. induction l; constructor; assumption. Qed.
Lemma subseq_app {A} (a b c d : list A) : subseq a b -> subseq c d -> subseq (a ++ c) (b ++ d).
Proof. intros H K. induction H; cbn [app]; [exact K | now constructor | now constructor]. Qed.
Lemma subseq_left {A} (p a b : list A) : subseq a b -> subseq a (p ++ b).
Proof. intro H. exact (subseq_app nil p a b (subseq_nil_l p) H). Qed.
Lemma subseq_right {A} (q a b : list A) : subseq a b -> subseq a (b ++ q).
Proof. intro H. rewrite <- (app_nil_r a). exact (subseq_app a b nil q H (subseq_nil_l q)). Qed.
Lemma subseq_mid {A} (p q a b : list A) : subseq a b -> subseq a (p ++ b ++ q).
Proof. intro H. now apply subseq_left, subseq_right. Qed.
Lemma subseq_seen s x : subseq (filter seen s) x -> forall y, (exists p q, x = p ++ y ++ q /\ filter seen p = nil /\ filter seen q = nil) -> subseq (filter seen s) y.
Proof.
  intros H y (p & q & -> & P & Q).
  assert (F : forall (a b : str), subseq (filter seen a) b -> subseq (filter seen a) (filter seen b)).
  { clear. intros a b H. remember (filter seen a) as a' eqn:E. assert (W : forall c, In c a' -> seen c = true).
    { intros c C. subst a'. now apply filter_In in C. } clear E.
    induction H as [|c a' b H IH|c a' b H IH]; [constructor | |].
    - cbn [filter]. rewrite (W c) by now left. constructor. apply IH. intros d D. apply W. now right.
    - cbn [filter]. destruct (seen c); [constructor|]; apply IH, W. }
  apply F in H. rewrite !filter_app, P, Q, app_nil_r in H. cbn [app] in H.
  clear - H. remember (filter seen s) as a. clear Heqa s. revert a H.
  induction y as [|c y IH]; intros a H; [exact H|]. cbn [filter] in H. destruct (seen c).
  - inversion H; subst; constructor; now apply IH.
  - constructor. now apply IH.
Qed.
Lemma filter_all_out {A} (f g : A -> bool) l : (forall c, f c = true -> g c = false) -> forallb f l = true -> filter g l = nil.
Proof.
  intros F H. induction l as [|c l IH]; [reflexivity|]. cbn [forallb] in H. apply andb_true_iff in H as [H1 H2].
  cbn [filter]. rewrite (F c H1). now apply IH.
Qed.
Lemma subseq_strip_p p s x : (forall c, p c = true -> is_space c = true) -> subseq (filter seen s) x -> subseq (filter seen s) (strip_p p x).
Proof.
  intros P H. destruct (strip_p_decomp p x) as (a & b & E & A & B & _). apply (subseq_seen s x H).
  assert (G : forall c, p c = true -> seen c = false) by (intros c C; unfold seen; now rewrite (P c C)).
  exists a, b. split; [exact E|]. split; apply (filter_all_out p seen); assumption.
Qed.
Lemma subseq_strip s x : subseq (filter seen s) x -> subseq (filter seen s) (strip x).
Proof. apply subseq_strip_p. trivial. Qed.
Lemma cmd_keeps name d x o s : cmd name d x = Ok o -> subseq s x -> subseq s o.
Proof.
  unfold cmd, tex_cmd. destruct (tex_params _ _ _ _ _) as [p|]; [|discriminate]. cbn [bind indented]. intros [= <-] H.
  change (subseq s (lit "\" ++ name ++ p ++ (lit "{" ++ x ++ lit "}"))). now apply subseq_left, subseq_left, subseq_left, subseq_mid.
Qed.
Lemma env_keeps name d x m o s : env name d x m = Ok o -> subseq s x -> subseq s o.
Proof.
  unfold env, tex_env. destruct (tex_params _ _ _ _ _) as [p|]; [|discriminate]. cbn [bind indented]. intros [= <-] H.
  set (c1 := if startswith x [10%N] then x else 10%N :: x).
  assert (C1 : subseq s c1) by (unfold c1; destruct (startswith x [10%N]); [exact H | now constructor]).
  set (c2 := if endswith c1 [10%N] then c1 else c1 ++ [10%N]).
  assert (C2 : subseq s c2) by (unfold c2; destruct (endswith c1 [10%N]); [exact C1 | now apply subseq_right]).
  assert (T : subseq s (lit "\begin" ++ lit "{" ++ name ++ lit "}" ++ p ++ (if m then lit " %" else []) ++ c2 ++ lit "\end{" ++ name ++ lit "}"))
    by (do 6 apply subseq_left; now apply subseq_right).
  destruct m; [exact T|]. constructor. exact (subseq_right [10%N] _ _ T).
Qed.
Lemma ensure_keeps m x o s : ensure m x = Ok o -> subseq s x -> subseq s o.
Proof. unfold ensure. destruct m; [now intros [= <-] | apply cmd_keeps]. Qed.

Section Keeps.
Variables (lower : str -> str) (uw : char -> bool) (pv : str -> ptype) (inactive : list str) (block : content -> bool).
Variable other : bool -> content -> result str.
Let tex := tex_fmt lower uw pv inactive block other.
Let cls := class_of lower inactive.
Lemma eq_keeps name d b m x o s : eq_tex uw pv name d b m x = Ok o -> subseq (filter seen s) x -> subseq (filter seen s) o.
Proof.
  unfold eq_tex. set (x1 := strip_p _ x). intros H X.
  assert (X1 : subseq (filter seen s) x1).
  { apply subseq_strip_p; [|exact X]. intros c C. apply mem_In in C. cbn in C. now destruct C as [<-|[<-|[<-|[]]]]. }
  revert H.
  assert (G : forall y, subseq (filter seen s) y ->
    (do x <- (if has (lit "bold") d || eqb name (lit "termb") then cmd (lit "boldsymbol") nil y else Ok y) ;
     let x := strip x in
     if m then Ok x
     else if has (lit "env") d || b then
       match get d (RKey (lit "env")) (Some (lit ".tex")) (VStr nil) with
       | VStr nil => env (lit "align*") d x true
       | VStr e => env e d x true
       | _ => Raise OtherError
       end
     else cmd (lit "ensuremath") d x) = Ok o -> subseq (filter seen s) o).
  { intros y Y.
    assert (B : forall z, (if has (lit "bold") d || eqb name (lit "termb") then cmd (lit "boldsymbol") nil y else Ok y) = Ok z -> subseq (filter seen s) z).
    { intros z. destruct (has (lit "bold") d || eqb name (lit "termb")); [intro E; exact (cmd_keeps _ _ _ _ _ E Y) | now intros [= <-]]. }
    destruct (if has (lit "bold") d || eqb name (lit "termb") then cmd (lit "boldsymbol") nil y else Ok y) as [z|]; [|discriminate].
    specialize (B z eq_refl). apply subseq_strip in B. cbn [bind]. cbv zeta. destruct m; [now intros [= <-]|].
    destruct (has (lit "env") d || b); [|intro E; exact (cmd_keeps _ _ _ _ _ E B)].
    destruct (get d (RKey (lit "env")) (Some (lit ".tex")) (VStr nil)) as [[|c e]| |]; try discriminate; intro E; exact (env_keeps _ _ _ _ _ _ E B). }
  destruct (lookup (lit "color") d) as [[v| |]|] eqn:C; try discriminate; [|exact (G x1 X1)].
  destruct (cmd (lit "textcolor") (load uw pv nil v) x1) as [y|] eqn:Y; [|discriminate]. cbn [bind]. apply G.
  exact (cmd_keeps _ _ _ _ _ Y X1).
Qed.
Hypothesis other_keeps : forall m t o s, other m t = Ok o -> shown cls t s -> subseq (filter seen s) o.
Lemma tex_keeps c : labelled cls uw pv c -> forall m o s, tex m c = Ok o -> shown cls c s -> subseq (filter seen s) o.
Proof.
  induction c as [t|name a c IH|l IH] using content_ind'; intros B m o s H Sh.
  - cbn in H. injection H as <-. inversion Sh; subst. apply Attributes.subseq_filter.
  - inversion B as [|? ? ? B1 B2|]; subst. pose proof Sh as Sh0. 
    assert (IC : cls name <> Some (lit "supsub") -> forall m x, tex m c = Ok x -> subseq (filter seen s) x).
    { intros N m' x X. inversion Sh as [|? ? ? ? Sc Sh'|? ? ? ? Sc|]; subst; [|contradiction]. now apply (IH B2 m' x s). }
    clear IH. unfold tex in H. cbn [tex_fmt] in H. fold tex in H. unfold cls in IC, Sh, B1. revert H.
    destruct (class_of lower inactive name) as [k|] eqn:K; [|intro H; exact (IC ltac:(discriminate) m o H)].
    destruct (eqb k (lit "supsub")) eqn:SS.
    { apply eqb_eq in SS. subst k.
      change (eqb (lit "supsub") (lit "body")) with false. change (eqb (lit "supsub") (lit "p")) with false.
      change (eqb (lit "supsub") (lit "sup")) with false. change (eqb (lit "supsub") (lit "sub")) with false.
      change (eqb (lit "supsub") (lit "supsub")) with true. cbv iota.
      destruct c as [t| |]; [|discriminate|discriminate].
      destruct (split_s (lit "&&") t) as [|x [|y [|z r]]] eqn:SP; try discriminate. intro H.
      assert (E : t = x ++ lit "&&" ++ y).
      { rewrite <- (split_s_join (lit "&&") t) by discriminate. now rewrite SP. }
      inversion Sh as [|? ? ? ? Sc Sh'|? ? x' y' Sc Nx Et|]; subst; [unfold cls in Sc; congruence|].
      match goal with W : x' ++ _ = x ++ _ |- _ => rename W into Et end.
      assert (Q : x' :: split_s (lit "&&") y' = [x; y]) by (rewrite <- (split_amp x' y' Nx), <- SP; exact (f_equal (split_s (lit "&&")) Et)).
      injection Q as <- Q. apply app_inv_head in Et. injection Et as Et.
      subst y'. clear SP Q. apply (ensure_keeps _ _ _ _ H).
      rewrite filter_app.
      apply subseq_left. apply subseq_app; [apply subseq_strip, Attributes.subseq_filter|].
      apply subseq_mid, subseq_strip, Attributes.subseq_filter. }
    assert (NS : Some k <> Some (lit "supsub")) by (intros [= ->]; discriminate SS).
    specialize (IC NS).
    destruct (eqb k (lit "body")); [intro H; exact (IC m o H)|].
    assert (BI : forall m' (f : str -> result str), (do x <- tex m' c ; f x) = Ok o -> exists x, subseq (filter seen s) x /\ f x = Ok o).
    { intros m' f E. destruct (tex m' c) as [x|] eqn:X; [|discriminate E]. exists x. split; [exact (IC m' x X) | exact E]. }
    destruct (eqb k (lit "p")).
    { intro H. apply BI in H as (x & X & H). injection H as <-.
      destruct (match c with Tag n _ _ => _ | _ => _ end); [exact X|]. now apply (subseq_mid [10%N] [10%N]). }
    destruct (eqb k (lit "sup")).
    { intro H. apply BI in H as (x & X & H). apply (ensure_keeps _ _ _ _ H). now apply (subseq_mid (lit "^{") (lit "}")). }
    destruct (eqb k (lit "sub")).
    { intro H. apply BI in H as (x & X & H). apply (ensure_keeps _ _ _ _ H). now apply (subseq_mid (lit "_{") (lit "}")). }
    assert (ST : forall t, c = Text t -> s = t).
    { intros t ->. inversion Sh as [|? ? ? ? Sc Sh'|? ? ? ? Sc|]; subst; [now inversion Sh' | unfold cls in Sc; congruence]. }
    destruct (eqb k (lit "symbol")).
    { destruct c as [t| |]; [|discriminate|discriminate]. rewrite (ST t eq_refl). intro H. apply (ensure_keeps _ _ _ _ H).
      apply subseq_left, Attributes.subseq_filter. }
    destruct (eqb k (lit "verb")).
    { destruct c as [t| |]; [|intro H; exact (other_keeps _ _ _ _ H Sh0)|intro H; exact (other_keeps _ _ _ _ H Sh0)].
      rewrite (ST t eq_refl). unfold verb_tex.
      destruct (eqb name (lit "verbatim")); [intro H; apply (env_keeps (lit "verbatim") _ _ _ _ _ H), Attributes.subseq_filter|].
      intros [= <-]. unfold tex_verb.
      destruct (negb (mem 124%N t)); [|destruct (negb (mem 33%N t)); [|destruct (negb (mem 94%N t))]];
        try apply subseq_mid; apply Attributes.subseq_filter. }
    destruct (eqb k (lit "eq")).
    { intro H. apply BI in H as (x & X & H). exact (eq_keeps _ _ _ _ _ _ _ H X). }
    destruct (mem k simple_env).
    { intro H. apply BI in H as (x & X & H). exact (env_keeps _ _ _ _ _ _ H X). }
    destruct (mem k headings && has (lit "nolabel") (attributes_of uw pv a)) eqn:NL.
    { exfalso. apply andb_true_iff in NL as [NL1 NL2]. apply (B1 k eq_refl); [now apply mem_In in NL1|].
      unfold has in NL2. destruct a as [x|]; [|discriminate NL2]. exists x. split; [reflexivity|].
      intro E. cbn [attributes_of] in NL2. rewrite E in NL2. discriminate NL2. }
    destruct (lookup k simple_cmd) as [n|].
    { intro H. apply BI in H as (x & X & H). exact (cmd_keeps _ _ _ _ _ H X). }
    intro H. exact (other_keeps _ _ _ _ H Sh0).
  - inversion B as [| |? B1]; subst. inversion Sh as [| | |? xs F2]; subst. unfold tex in H. cbn [tex_fmt] in H. fold tex in H.
    clear B Sh. revert xs F2 o H. induction IH as [|x l X L IHl]; intros xs F2 o H.
    + inversion F2. apply subseq_nil_l.
    + apply Forall_cons_iff in B1 as [B1 B2]. inversion F2 as [|? s1 ? ss Fx Fr]; subst.
      assert (P0 : forall y, match x with Items _ => Raise TypeError | _ => tex m x end = Ok y -> tex m x = Ok y)
        by (intro y; destruct x; [trivial | trivial | discriminate]).
      destruct (match x with Items _ => _ | _ => _ end) as [p|] eqn:P1; [|discriminate H]. specialize (P0 p eq_refl). rename P0 into P. clear P1. cbn [bind] in H.
      destruct ((fix go (l : list content) : result str := _) l) as [q|] eqn:Q; [|discriminate H]. cbn [bind] in H. injection H as <-.
      cbn [concat]. rewrite filter_app. apply subseq_app; [exact (X B1 m p s1 P Fx) | exact (IHl B2 ss Fr q eq_refl)].
Qed.
End Keeps.

(** ** Errors *)
Lemma cmd_none name d x : lookup name tex_cmd_arguments = Some nil -> lookup name tex_cmd_optionals = None -> exists o, cmd name d x = Ok o.
Proof. intros A B. unfold cmd, tex_cmd, tex_params, has. rewrite A, B. cbn. eexists. reflexivity. Qed.
Lemma env_none name d x m : lookup name tex_env_arguments = Some nil -> lookup name tex_env_optionals = None -> exists o, env name d x m = Ok o.
Proof. intros A B. unfold env, tex_env, tex_params, has. rewrite A, B. cbn. destruct m; eexists; reflexivity. Qed.
Lemma ensure_ok m x : exists o, ensure m x = Ok o.
Proof. unfold ensure. destruct m; [eexists; reflexivity | apply cmd_none; reflexivity]. Qed.
Section Total.
Variables (lower : str -> str) (uw : char -> bool) (pv : str -> ptype) (inactive : list str) (block : content -> bool).
Variable other : bool -> content -> result str.
Let tex := tex_fmt lower uw pv inactive block other.
Let cls := class_of lower inactive.
Lemma tex_ok c : texts_only cls c -> forall m, exists o, tex m c = Ok o.
Proof.
  induction c as [t|name a c IH|l IH] using content_ind'; intros B m.
  - eexists. reflexivity.
  - unfold tex. cbn [tex_fmt]. fold tex.
    inversion B as [|? ? ? B1 B2|? ? t B1|? ? x y B1 X Y|]; subst.
    + destruct (IH B2 m) as [o O]. unfold cls in B1. destruct (class_of lower inactive name) as [k|]; [|exists o; exact O].
      specialize (B1 k eq_refl). cbn [In] in B1. rewrite O.
      destruct B1 as [<-|[<-|[<-|[<-|[<-|[<-|[<-|[<-|[<-|[<-|[<-|[]]]]]]]]]]]].
      * exists o. reflexivity.
      * eexists. reflexivity.
      * exact (ensure_ok m (lit "^{" ++ o ++ lit "}")).
      * exact (ensure_ok m (lit "_{" ++ o ++ lit "}")).
      * exact (cmd_none (lit "textbf") _ o eq_refl eq_refl).
      * exact (cmd_none (lit "textit") _ o eq_refl eq_refl).
      * exact (cmd_none (lit "paragraph") _ o eq_refl eq_refl).
      * exact (cmd_none (lit "marginnote") _ o eq_refl eq_refl).
      * exact (env_none (lit "featurebox") _ o false eq_refl eq_refl).
      * exact (env_none (lit "examplebox") _ o false eq_refl eq_refl).
      * exact (env_none (lit "problembox") _ o false eq_refl eq_refl).
    + unfold cls in B1. destruct B1 as [->| ->].
      * change (exists o, verb_tex name t = Ok o). unfold verb_tex. destruct (eqb name (lit "verbatim")); [|eexists; reflexivity].
        apply (env_none (lit "verbatim")); reflexivity.
      * apply (ensure_ok m (lit "\" ++ t)).
    + unfold cls in B1. rewrite B1.
      change (exists o, match split_s (lit "&&") (x ++ lit "&&" ++ y) with
                        | [x; y] => ensure m (lit "^{" ++ strip x ++ lit "}_{" ++ strip y ++ lit "}")
                        | _ => Raise TagError end = Ok o).
      rewrite (split_two _ _ X Y). apply ensure_ok.
  - inversion B as [| | | |? B1 B0]; subst. unfold tex. cbn [tex_fmt]. fold tex. clear B.
    induction IH as [|x l X L IHl]; [eexists; reflexivity|]. apply Forall_cons_iff in B1 as [B1 B2].
    apply Forall_cons_iff in B0 as [B3 B4]. destruct (X B1 m) as [p P].
    assert (P0 : match x with Items _ => Raise TypeError | _ => tex m x end = Ok p) by (destruct x as [| |l']; [exact P | exact P | now destruct (B3 l')]).
    rewrite P0. cbn [bind]. destruct (IHl B2 B4) as [q Q]. rewrite Q. eexists. reflexivity.
Qed.
End Total.

(** ** Names of classes *)
Definition add_names (c : tcls) (ns : list str) (r : result (dict str tcls)) : result (dict str tcls) :=
  fold_left (fun r name => do d <- r ; if has name d then Raise AssertionError else Ok (set name c d)) ns r.
Lemma add_names_raise c ns e : add_names c ns (Raise e) = Raise e.
Proof. induction ns as [|n ns IH]; [reflexivity | exact IH]. Qed.
Lemma add_names_ok c ns : forall d, NoDup ns -> (forall n, In n ns -> lookup n d = None) ->
  exists d', add_names c ns (Ok d) = Ok d' /\ forall n k, lookup n d' = Some k <-> lookup n d = Some k \/ (k = c /\ In n ns).
Proof.
  induction ns as [|n ns IH]; intros d N D.
  - exists d. split; [reflexivity|]. intros. cbn [In]. tauto.
  - inversion N as [|? ? N1 N2]; subst. unfold add_names. cbn [fold_left bind]. unfold has. rewrite (D n) by now left. fold (add_names c ns (Ok (set n c d))).
    destruct (IH (set n c d) N2) as (d' & E & Q).
    { intros m M. rewrite lookup_set_neq by (intros ->; contradiction). apply D. now right. }
    exists d'. split; [exact E|]. intros m k. rewrite Q. destruct (eqb_spec m n) as [->|NE].
    + rewrite lookup_set_eq. rewrite (D n) by now left. cbn [In]. split; [intros [[= <-]|[-> I]]; [tauto|contradiction] | intros [H|[-> _]]; [discriminate H | now left]].
    + rewrite lookup_set_neq by exact NE. cbn [In]. split; [intros [H|[-> I]]; tauto | intros [H|[-> [->|I]]]; tauto].
Qed.
Lemma add_names_dup c ns : forall d, ~ (NoDup ns /\ forall n, In n ns -> lookup n d = None) -> add_names c ns (Ok d) = Raise AssertionError.
Proof.
  induction ns as [|n ns IH]; intros d D; [exfalso; apply D; split; [constructor | intros n []]|].
  unfold add_names. cbn [fold_left bind]. unfold has. destruct (lookup n d) eqn:L; [apply add_names_raise|].
  fold (add_names c ns (Ok (set n c d))). apply IH. intros [N A]. apply D.
  assert (NI : ~ In n ns) by (intro I; specialize (A n I); rewrite lookup_set_eq in A; discriminate A).
  split; [now constructor|]. intros m [<-|M]; [exact L|]. specialize (A m M). rewrite lookup_set_neq in A; [exact A|].
  intros ->. contradiction.
Qed.
Lemma nodup_app_inv {A} (a b : list A) : NoDup (a ++ b) -> NoDup a /\ NoDup b.
Proof.
  induction a as [|x a IH]; intro N; [split; [constructor | exact N]|]. inversion N as [|? ? N1 N2]; subst.
  destruct (IH N2) as [A1 B1]. split; [|exact B1]. constructor; [|exact A1]. intro I. apply N1, in_or_app. now left.
Qed.
Lemma classes_step l : forall d, 
  (NoDup (concat (map names l)) /\ (forall n, In n (concat (map names l)) -> lookup n d = None) ->
   exists d', fold_left (fun r c => add_names c (names c) r) l (Ok d) = Ok d' /\
     forall n k, lookup n d' = Some k <-> lookup n d = Some k \/ (In k l /\ In n (names k))) /\
  (~ (NoDup (concat (map names l)) /\ (forall n, In n (concat (map names l)) -> lookup n d = None)) ->
   fold_left (fun r c => add_names c (names c) r) l (Ok d) = Raise AssertionError).
Proof.
  induction l as [|c l IH]; intro d.
  - split; [intros _|intro H; exfalso; apply H; split; [constructor | intros n []]].
    exists d. split; [reflexivity|]. intros. cbn [In]. tauto.
  - cbn [map concat fold_left]. split.
    + intros [N D]. destruct (nodup_app_inv _ _ N) as [N1 N2].
      destruct (add_names_ok c (names c) d N1) as (d' & E & Q); [intros n I; apply D, in_or_app; now left|].
      rewrite E. destruct (proj1 (IH d')) as (d2 & E2 & Q2).
      { split; [exact N2|]. intros n I. destruct (lookup n d') as [k|] eqn:L; [|reflexivity]. exfalso. apply Q in L as [L|[_ L]].
        - rewrite D in L by (apply in_or_app; now right). discriminate L.
        - clear - N L I. revert N L. generalize (names c). intros ns N L. induction ns as [|m ns IH]; [destruct L|].
          inversion N as [|? ? N1 N2]; subst. destruct L as [->|L]; [apply N1, in_or_app; now right | now apply IH]. }
      exists d2. split; [exact E2|]. intros n k. rewrite Q2, Q. cbn [In]. split; [|intros [H|[[->|H] I]]; tauto].
      intros [[H|[-> H]]|[H I]]; tauto.
    + intro H.
      destruct (add_names c (names c) (Ok d)) as [d'|e] eqn:E.
      * apply (proj2 (IH d')). intros [N2 D2]. apply H. clear H IH.
        assert (W : NoDup (names c) /\ forall n, In n (names c) -> lookup n d = None).
        { destruct (ListDec.NoDup_dec (list_eq_dec N.eq_dec) (names c)) as [Y|Y].
          - split; [exact Y|]. intros n I. destruct (lookup n d) eqn:L; [|reflexivity]. exfalso.
            rewrite add_names_dup in E; [discriminate E|]. intros [_ W]. rewrite (W n I) in L. discriminate L.
          - exfalso. rewrite add_names_dup in E; [discriminate E|]. tauto. }
        destruct W as [N1 D1]. destruct (add_names_ok c (names c) d N1 D1) as (d3 & E3 & Q). rewrite E in E3. injection E3 as <-.
        assert (X : forall n, In n (names c) -> In n (concat (map names l)) -> False).
        { intros n I J. specialize (D2 n J). assert (lookup n d' = Some c) by (apply Q; now right). congruence. }
        split.
        -- clear - N1 N2 X. induction N1 as [|m ns M N IH]; [exact N2|]. cbn [app]. constructor.
           ++ intro I. apply in_app_or in I as [I|I]; [contradiction | exact (X m (or_introl eq_refl) I)].
           ++ apply IH. intros n I J. exact (X n (or_intror I) J).
        -- intros n I. apply in_app_or in I as [I|I]; [now apply D1|]. specialize (D2 n I).
           destruct (lookup n d) as [k|] eqn:L; [|reflexivity]. assert (lookup n d' = Some k) by (apply Q; now left). congruence.
      * assert (e = AssertionError).
        { destruct (ListDec.NoDup_dec (list_eq_dec N.eq_dec) (names c)) as [Y|Y].
          - clear - E. unfold names in E. revert d E. generalize (t_name c :: t_aliases c). intro ns.
            induction ns as [|n ns IH]; intros d E; [discriminate E|]. unfold add_names in E. cbn [fold_left bind] in E.
            destruct (has n d); [change (add_names c ns (Raise AssertionError) = Raise e) in E; rewrite add_names_raise in E; congruence|].
            exact (IH _ E).
          - rewrite add_names_dup in E by tauto. congruence. }
        subst e. clear. induction l as [|c' l IH]; [reflexivity|]. cbn [fold_left]. rewrite add_names_raise. exact IH.
Qed.
(** A table of the classes is made exactly if no name is used twice, and then each name or alias leads to its class *)
Theorem C69_tables : forall l,
  (NoDup (concat (map names l)) ->
   exists d, tag_classes l = Ok d /\ forall n c, lookup n d = Some c <-> In c l /\ In n (names c)) /\
  (~ NoDup (concat (map names l)) -> tag_classes l = Raise AssertionError).
Proof.
  intro l. destruct (classes_step l nil) as [A B]. split.
  - intro N. destruct A as (d & E & Q); [split; [exact N | reflexivity]|]. exists d. split; [exact E|].
    intros n c. rewrite Q. cbn. split; [intros [H|H]; [discriminate H | exact H] | now right].
  - intro N. apply B. tauto.
Qed.
Lemma classes_nodup : NoDup (concat (map names classes)).
Proof.
  assert (H : forall l : list str, (fix ok (l : list str) := match l with nil => true | x :: r => negb (mem x r) && ok r end) l = true -> NoDup l).
  { induction l as [|x l IH]; intro H; [constructor|]. apply andb_true_iff in H as [H1 H2]. constructor; [|now apply IH].
    apply negb_true_iff in H1. now apply mem_not_In in H1. }
  apply H. vm_compute. reflexivity.
Qed.
(** A tag has the class one of whose names it is, in lower case, unless that class is not active *)
Theorem C69_names : forall lower inactive name c,
  tag_class lower inactive name = Ok (Some c) <->
    In c classes /\ In (lower name) (names c) /\ t_active c = true /\ ~ In (t_name c) inactive.
Proof.
  intros lower inactive name c. destruct (proj1 (C69_tables classes) classes_nodup) as (d & E & Q).
  unfold tag_class. rewrite E. cbn [bind]. split.
  - destruct (lookup (lower name) d) as [k|] eqn:L; [|discriminate]. apply Q in L as [L1 L2].
    destruct (t_active k) eqn:A; [|discriminate]. destruct (mem (t_name k) inactive) eqn:M; [discriminate|]. intros [= <-].
    apply mem_not_In in M. tauto.
  - intros (I & N & A & M). rewrite (proj2 (Q _ _) (conj I N)). rewrite A. apply mem_not_In in M. now rewrite M.
Qed.
(** ... and it always has a class: one of these or the general one *)
Theorem C69_class_total : forall lower inactive name, exists r, tag_class lower inactive name = Ok r.
Proof.
  intros lower inactive name. destruct (proj1 (C69_tables classes) classes_nodup) as (d & E & Q).
  unfold tag_class. rewrite E. eexists. reflexivity.
Qed.
(** Tags are not made inactive by the other names of their classes: the template books/novel lists 'marginfig' *)
Theorem C69_inactive_refuted :
  ~ (forall lower inactive name, In (lower name) inactive -> tag_class lower inactive name = Ok None).
Proof.
  intro H. specialize (H (fun x => x) [lit "marginfig"; lit "margintable"] (lit "marginfig") (or_introl eq_refl)).
  vm_compute in H. discriminate H.
Qed.

(** ** Theorems *)
(** The braces of a rendering are balanced if those of the text of each tag are *)
Theorem C69_balanced : forall lower uw pv inactive block other,
  (forall m t o, braces_ok t -> other m t = Ok o -> balanced o) ->
  forall c m o, braces_ok c -> balanced (direct c) -> tex_fmt lower uw pv inactive block other m c = Ok o -> balanced o.
Proof.
  intros lower uw pv inactive block other O c m o B D H. apply balanced_scan.
  eapply tex_scan; [exact O | exact B | exact H|]. now apply balanced_scan.
Qed.
(** ... which is so for the tags of a text with balanced braces, without braces in the attributes *)
Theorem C69_source : forall lower uw pv inactive block other verbatim,
  (forall m t o, braces_ok t -> other m t = Ok o -> balanced o) ->
  forall x c m o, balanced x -> parse_text uw verbatim x = Ok c -> attrs_ok c ->
    tex_fmt lower uw pv inactive block other m c = Ok o -> balanced o.
Proof.
  intros lower uw pv inactive block other verbatim O x c m o B P A H.
  rewrite parse_text_items in P. destruct (items uw verbatim x) as [l|] eqn:E; [|discriminate P]. cbn [bind] in P.
  apply Attributes.Ok_inj in P. subst c. destruct (items_braces uw verbatim x l E (simplify_attrs _ A)) as [I1 I2].
  refine (C69_balanced _ _ _ _ _ _ O (simplify l) m o (simplify_braces l I1) _ H).
  rewrite direct_simplify. apply balanced_scan, I2. now apply balanced_scan.
Qed.
(** The text of tags, but for white space, is in the rendering, in order *)
Theorem C69_text : forall lower uw pv inactive block other,
  let cls := class_of lower inactive in
  (forall m t o s, other m t = Ok o -> shown cls t s -> subseq (filter seen s) o) ->
  forall c m o s, labelled cls uw pv c -> shown cls c s ->
    tex_fmt lower uw pv inactive block other m c = Ok o -> subseq (filter seen s) o.
Proof. intros lower uw pv inactive block other cls O c m o s L S H. eapply tex_keeps; eassumption. Qed.
(** Texts have a rendering *)
Theorem C69_total : forall lower uw pv inactive block other c m,
  texts_only (class_of lower inactive) c -> exists o, tex_fmt lower uw pv inactive block other m c = Ok o.
Proof. intros. now apply tex_ok. Qed.
(** A superscript with a subscript has two parts *)
Theorem C69_supsub : forall lower uw pv inactive block other name a m,
  class_of lower inactive name = Some (lit "supsub") ->
  (forall x y, ~ In 38%N x -> ~ In 38%N y ->
     tex_fmt lower uw pv inactive block other m (Tag name a (Text (x ++ lit "&&" ++ y))) =
       Ok (if m then lit "^{" ++ strip x ++ lit "}_{" ++ strip y ++ lit "}"
           else lit "\ensuremath{^{" ++ strip x ++ lit "}_{" ++ strip y ++ lit "}}")) /\
  (forall x, (forall p q, x <> p ++ lit "&&" ++ q) ->
     tex_fmt lower uw pv inactive block other m (Tag name a (Text x)) = Raise TagError) /\
  (forall x y z, ~ In 38%N x -> ~ In 38%N y ->
     tex_fmt lower uw pv inactive block other m (Tag name a (Text (x ++ lit "&&" ++ y ++ lit "&&" ++ z))) = Raise TagError).
Proof.
  intros lower uw pv inactive block other name a m K. 
  assert (U : forall t, tex_fmt lower uw pv inactive block other m (Tag name a (Text t)) =
    match split_s (lit "&&") t with
    | [x; y] => ensure m (lit "^{" ++ strip x ++ lit "}_{" ++ strip y ++ lit "}")
    | _ => Raise TagError end) by (intro t; cbn [tex_fmt]; rewrite K; reflexivity).
  split; [|split].
  - intros x y X Y. rewrite U, (split_two _ _ X Y). unfold ensure. destruct m; [reflexivity|].
    unfold cmd, tex_cmd. assert (P : tex_params tex_cmd_arguments tex_cmd_optionals false (lit "ensuremath") [] = Ok nil) by reflexivity.
    rewrite P. cbn [bind indented]. f_equal. change (lit "\ensuremath{^{") with (lit "\" ++ lit "ensuremath" ++ nil ++ lit "{" ++ lit "^{").
    rewrite <- !app_assoc. reflexivity.
  - intros x X. rewrite U, split_s_none; [reflexivity|]. destruct (contains x (lit "&&")) eqn:C; [|reflexivity].
    apply contains_iff in C as (p & q & C). now apply X in C.
  - intros x y z X Y. rewrite U, (split_amp _ _ X), (split_amp _ _ Y).
    pose proof (split_from_nonnil (lit "&&") z 0) as N. fold (split_s (lit "&&") z) in N. now destruct (split_s (lit "&&") z).
Qed.
(** The forms of tags with text *)
Theorem C69_forms : forall lower uw pv inactive block other name a c m x,
  let tex := tex_fmt lower uw pv inactive block other in
  tex m c = Ok x ->
  (class_of lower inactive name = None -> tex m (Tag name a c) = Ok x) /\
  (forall k p q, class_of lower inactive name = Some k -> In (k, (p, q)) (around m) -> tex m (Tag name a c) = Ok (p ++ x ++ q)) /\
  (forall k, class_of lower inactive name = Some k -> In k [lit "featurebox"; lit "examplebox"; lit "problembox"] ->
     startswith x [10%N] = false -> endswith x [10%N] = false -> x <> nil -> tex m (Tag name a c) = Ok (box k x)) /\
  (class_of lower inactive name = Some (lit "p") -> (forall n b d, c <> Tag n b d) -> tex m (Tag name a c) = Ok ([10%N] ++ x ++ [10%N])).
Proof.
  intros lower uw pv inactive block other name a c m x tex X. unfold tex in *. cbn [tex_fmt]. split; [|split; [|split]].
  - intros ->. exact X.
  - intros k p q -> I. rewrite X. cbn [around In] in I.
    destruct I as [[= <- <- <-]|[[= <- <- <-]|[[= <- <- <-]|[[= <- <- <-]|[[= <- <- <-]|[I|[I|[]]]]]]]].
    + cbn [app]. now rewrite app_nil_r.
    + reflexivity.
    + reflexivity.
    + reflexivity.
    + reflexivity.
    + destruct m; injection I as <- <- <-; [reflexivity|].
      change (Ok (lit "\ensuremath{" ++ (lit "^{" ++ x ++ lit "}") ++ lit "}") = Ok (lit "\ensuremath{^{" ++ x ++ lit "}}")).
      now rewrite <- !app_assoc.
    + destruct m; injection I as <- <- <-; [reflexivity|].
      change (Ok (lit "\ensuremath{" ++ (lit "_{" ++ x ++ lit "}") ++ lit "}") = Ok (lit "\ensuremath{_{" ++ x ++ lit "}}")).
      now rewrite <- !app_assoc.
  - intros k -> I S E N. rewrite X. 
    assert (EC : endswith (10%N :: x) [10%N] = false).
    { destruct (endswith (10%N :: x) [10%N]) eqn:W; [|reflexivity]. apply endswith_iff in W as [y W].
      destruct y as [|c0 y]; [injection W as W; subst x; contradiction|]. injection W as _ W.
      assert (endswith x [10%N] = true) by (apply endswith_iff; now exists y). congruence. }
    assert (U : forall e, lookup e tex_env_arguments = Some nil -> lookup e tex_env_optionals = None ->
      env e (attributes_of uw pv a) x false = Ok (box e x)).
    { intros e A B. unfold env, tex_env, tex_params, Dict.has. rewrite A, B. cbn [negb andb].
      change (filter_attrs (attributes_of uw pv a) (Some nil) (Some (lit "tex")) true true) with (Ok (@nil (str * aval))).
      cbn [bind length Nat.eqb]. rewrite S, EC. cbn [indented]. unfold box. f_equal.
      change (tex_arguments [] ++ []) with (@nil char). cbn [app].
      repeat (rewrite <- ?app_assoc; cbn [app]). reflexivity. }
    cbn [In] in I. destruct I as [<-|[<-|[<-|[]]]];
      [exact (U (lit "featurebox") eq_refl eq_refl) | exact (U (lit "examplebox") eq_refl eq_refl) | exact (U (lit "problembox") eq_refl eq_refl)].
  - intros -> N. rewrite X. destruct c as [s|n b d|l]; [reflexivity | exfalso; now apply (N n b d) | reflexivity].
Qed.
(** Equations without attributes *)
Theorem C69_equations : forall lower uw pv inactive block other name c x,
  let tex := tex_fmt lower uw pv inactive block other in
  class_of lower inactive name = Some (lit "eq") -> name <> lit "termb" -> tex true c = Ok x ->
  tex true (Tag name None c) = Ok (strip x) /\
  (block (Tag name None c) = false -> tex false (Tag name None c) = Ok (lit "\ensuremath{" ++ strip x ++ lit "}")).
Proof.
  intros lower uw pv inactive block other name c x tex K N X. unfold tex in *. cbn [tex_fmt]. rewrite K.
  assert (Nb : eqb name (lit "termb") = false) by now apply eqb_neq.
  assert (T : strip (strip_p (fun c => mem c (lit " " ++ [9%N; 10%N])) x) = strip x).
  { unfold strip. destruct (strip_p_decomp (fun c => mem c (lit " " ++ [9%N; 10%N])) x) as (p & q & E & P & Q & _).
    set (y := strip_p _ x) in *. destruct (strip_p_decomp is_space y) as (p' & q' & E' & P' & Q' & S').
    assert (W : forall l, forallb (fun c => mem c (lit " " ++ [9%N; 10%N])) l = true -> forallb is_space l = true).
    { intros l L. rewrite forallb_forall in *. intros z Z. specialize (L z Z). apply mem_In in L. cbn in L. now destruct L as [<-|[<-|[<-|[]]]]. }
    symmetry. transitivity (strip_p is_space ((p ++ p') ++ strip_p is_space y ++ (q' ++ q))).
    { f_equal. transitivity (p ++ (p' ++ strip_p is_space y ++ q') ++ q); [now rewrite <- E'|]. now rewrite <- !app_assoc. }
    apply strip_p_unique.
    - rewrite forallb_app, P', andb_true_r. now apply W.
    - rewrite forallb_app, Q'. now apply W.
    - exact S'. }
  change (attributes_of uw pv None) with (@nil (str * aval)). split.
  - change ((do x0 <- tex_fmt lower uw pv inactive block other true c; eq_tex uw pv name [] (block (Tag name None c)) true x0) = Ok (strip x)).
    rewrite X. cbn [bind]. unfold eq_tex. cbn [lookup]. cbn [bind]. change (has (lit "bold") (@nil (str * aval))) with false. cbn [orb].
    rewrite Nb. cbn [bind]. cbv zeta. now rewrite T.
  - intro Bl. change ((do x0 <- tex_fmt lower uw pv inactive block other true c; eq_tex uw pv name [] (block (Tag name None c)) false x0) = Ok (lit "\ensuremath{" ++ strip x ++ lit "}")).
    rewrite X, Bl. cbn [bind]. unfold eq_tex. cbn [lookup]. cbn [bind]. change (has (lit "bold") (@nil (str * aval))) with false. cbn [orb].
    rewrite Nb. cbn [bind]. cbv zeta. rewrite T. reflexivity.
Qed.
(** A chapter with the attribute nolabel is without its title *)
Theorem C69_nolabel_refuted :
  ~ (forall lower uw pv inactive block other,
       (forall m t o s, other m t = Ok o -> shown (class_of lower inactive) t s -> subseq (filter seen s) o) ->
       forall c m o s, shown (class_of lower inactive) c s ->
         tex_fmt lower uw pv inactive block other m c = Ok o -> subseq (filter seen s) o).
Proof.
  intro H. specialize (H (fun x => x) (fun _ => false) (fun _ => PStr) nil (fun _ => false) (fun _ _ => Raise OtherError)).
  assert (O : forall m t o s, (fun (_ : bool) (_ : content) => Raise OtherError) m t = Ok o -> shown (class_of (fun x => x) nil) t s -> subseq (filter seen s) o) by discriminate.
  specialize (H O (Tag (lit "chapter") (Some (lit "[nolabel]")) (Text (lit "One"))) false (lit "\chapter{}") (lit "One")).
  assert (S : shown (class_of (fun x => x) nil) (Tag (lit "chapter") (Some (lit "[nolabel]")) (Text (lit "One"))) (lit "One"))
    by (constructor; [vm_compute; discriminate | constructor]).
  specialize (H S). assert (E : tex_fmt (fun x => x) (fun _ => false) (fun _ => PStr) nil (fun _ => false) (fun _ _ => Raise OtherError) false
    (Tag (lit "chapter") (Some (lit "[nolabel]")) (Text (lit "One"))) = Ok (lit "\chapter{}")) by (vm_compute; reflexivity).
  specialize (H E). vm_compute in H.
  repeat match goal with W : subseq _ _ |- _ => inversion W; clear W; subst end.
Qed.
(** A text with nested tags, an equation and a box *)
Definition ex_source : str := lit "A @b{bold @i{word}} and x@sup{2}, @supsub{1 && 2}, @eq{a_{1}}. @featurebox{Done.}".
Example C69_ex :
  let tex := tex_fmt (fun x => x) (fun _ => false) (fun _ => PStr) nil (fun _ => false) (fun _ _ => Raise OtherError) false in
  exists c, parse_text (fun _ => false) (fun _ => false) ex_source = Ok c /\ attrs_ok c /\ balanced ex_source /\
    labelled (class_of (fun x => x) nil) (fun _ => false) (fun _ => PStr) c /\
    tex c = Ok (lit "A \textbf{bold \textit{word}} and x\ensuremath{^{2}}, \ensuremath{^{1}_{2}}, \ensuremath{a_{1}}. " ++
                [10%N] ++ lit "\begin{featurebox}" ++ [10%N] ++ lit "Done." ++ [10%N] ++ lit "\end{featurebox}" ++ [10%N]).
Proof.
  cbv zeta. eexists. split; [vm_compute; reflexivity|]. split; [repeat constructor|]. split; [apply balanced_scan; vm_compute; reflexivity|].
  split; [|vm_compute; reflexivity]. repeat constructor; intros k K I (x & X & _); discriminate X.
Qed.
