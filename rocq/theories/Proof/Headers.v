From Coq Require Import List Bool Arith NArith ZArith Lia Permutation.
From Verif.Base Require Import Str StrFacts Dict DictFacts Result PurePath.
From Verif.Model Require Import ListUtils StrToDict Context Headers.
From Verif.Spec Require Import Context Headers.
From Verif.Proof Require Import Context.
Import ListNotations.

Section Contexts.
Context (to_int : scalar -> result Z) (to_float : scalar -> result N) (lower : str -> str) (order : list str -> list str).

(** ** Contexts with texts only *)
Definition textctx (h : list cell) (a : nat) (m : str -> option str) : Prop :=
  exists d F, holds h (VRef a) (TDict d) F /\ forall k, lookup k d = as_tree (m k).
Lemma text_foot h a d F m x : holds h (VRef a) (TDict d) F -> (forall k, lookup k d = as_tree (m k)) -> F x -> x = a.
Proof.
  intros H Hm Hx. destruct (dict_inv _ _ _ _ H) as (vd & Ps & D & ->). destruct Hx as [->|[k Hk]]; [reflexivity|]. exfalso.
  pose proof (dr_entry _ _ _ _ _ D k) as E. rewrite Hm in E. revert E Hk. generalize (Ps k), (lookup k vd). intros P o E Hk. destruct (m k) as [s|]; cbn [as_tree] in E.
  - inversion E as [|v t P' Hv]; subst. inversion Hv; subst. exact Hk.
  - inversion E; subst. exact Hk.
Qed.
Lemma textctx_frame h h' a m : textctx h a m -> nth_error h' a = nth_error h a -> textctx h' a m.
Proof.
  intros (d & F & H & Hm) E. exists d, F. split; [|exact Hm]. eapply frame; [exact H|]. intros x Hx. rewrite (text_foot _ _ _ _ _ _ H Hm Hx). exact E.
Qed.
Lemma textctx_lt h a m : textctx h a m -> a < length h.
Proof. intros (d & F & H & _). destruct (dict_inv _ _ _ _ H) as (vd & Ps & D & _). apply (nth_lt _ _ _ (dr_cell _ _ _ _ _ D)). Qed.
Lemma textctx_ext h a m m' : (forall k, m k = m' k) -> textctx h a m -> textctx h a m'.
Proof. intros E (d & F & H & Hm). exists d, F. split; [exact H|]. intros k. rewrite <- E. apply Hm. Qed.

Definition over (e : dict str str) (m : str -> option str) (k : str) : option str :=
  match lookup k e with Some v => Some v | None => m k end.
Lemma text_update h a m e h' : textctx h a m -> wf e ->
  match_update to_int to_float lower 5 nil true a (length h) None (h ++ [CDict (texts e)]) = Ok h' ->
  textctx h' a (over e m) /\ length h <= length h' /\ (forall x, x < length h -> x <> a -> nth_error h' x = nth_error h x).
Proof.
  intros T W E. pose proof (textctx_lt _ _ _ T) as La. destruct T as (d & F & H & Hm). set (h1 := h ++ [CDict (texts e)]) in *.
  assert (L1 : length h1 = S (length h)) by apply app1_length.
  assert (H1 : holds h1 (VRef a) (TDict d) F). { eapply frame; [exact H|]. intros x Hx. apply alloc_old. exact (bound _ _ _ _ _ H Hx). }
  pose proof (dict_holds _ _ _ _ _ (texts_rep h1 (length h) e (alloc_new _ _) W)) as HG.
  assert (A1 : forall y, F y -> (y = length h \/ (exists k : str, False)) -> False).
  { intros y Hy [->|[_ []]]. apply (bound _ _ _ _ _ H) in Hy. lia. }
  destruct (update_spec to_int to_float lower 5 nil true a (length h) None h1 h' d (ttexts e) F _ H1 HG A1 Logic.I E)
    as (d' & F' & U1 & U2 & _ & U4 & U5 & _).
  split; [|split; [lia|]].
  - exists d', F'. split; [exact U1|]. intros k. specialize (U2 k Logic.I). unfold ttexts in U2. rewrite (lookup_map_snd (fun s => TS (SStr s))), Hm in U2. unfold over.
    destruct (lookup k e) as [v|]; cbn [option_map] in U2.
    + cbn [mem existsb] in U2. destruct (m k) as [s|]; cbn [as_tree] in U2; inversion U2 as [|rp w v0|rp o v0 r Hu|]; subst; [|reflexivity].
      inversion Hu as [| | | | | |o' v' r' Hc]; subst. inversion Hc; subst; [reflexivity|]. exfalso. match goal with H : forall s', _ <> _ |- _ => exact (H _ eq_refl) end.
    + inversion U2; subst; reflexivity.
  - intros x Hx Hn. rewrite U5; [apply alloc_old, Hx|lia|]. intros Hf. apply Hn. exact (text_foot _ _ _ _ _ _ H Hm Hf).
Qed.

(** ** New contexts *)
Lemma new_base h : exists x, new_context to_int to_float lower order BaseContext nil None nil h = Ok (x, h ++ [CDict nil; CDict nil]) /\ self x = length h.
Proof.
  exists {| self := length h; parent := None; initial := length (h ++ [CDict nil]) |}. split; [|reflexivity]. unfold new_context, alloc. cbn zeta. unfold reset. cbn [self parent initial].
  assert (E1 : nth_error ((h ++ [CDict nil]) ++ [CDict nil]) (length h) = Some (CDict nil)).
  { rewrite <- app_assoc, nth_error_app2, Nat.sub_diag by lia. reflexivity. }
  unfold get_dict at 1. rewrite E1. cbn [bind filter].
  assert (E2 : upd ((h ++ [CDict nil]) ++ [CDict nil]) (length h) (CDict nil) = h ++ [CDict nil; CDict nil]).
  { rewrite <- app_assoc. cbn [app]. clear. induction h as [|c h IH]; [reflexivity|]. cbn [app length upd]. rewrite IH. reflexivity. }
  rewrite E2. rewrite app_length. cbn [length]. cbn [match_update]. unfold get_dict at 1.
  replace (nth_error (h ++ [CDict nil; CDict nil]) (length h + 1)) with (Some (CDict nil)).
  - reflexivity.
  - symmetry. rewrite nth_error_app2 by lia. replace (length h + 1 - length h) with 1 by lia. reflexivity.
Qed.
Lemma new_base_text h : textctx (h ++ [CDict nil; CDict nil]) (length h) (fun _ => None).
Proof.
  exists nil. eexists. split.
  - apply (holds_dict _ _ nil nil (fun _ _ => False)).
    + rewrite nth_error_app2, Nat.sub_diag by lia. reflexivity.
    + constructor.
    + reflexivity.
    + intros k. constructor.
    + intros k [].
    + intros k1 k2 x [].
  - reflexivity.
Qed.

(** ** The loops *)
Lemma load_templates_ok : forall ts t h h' m, textctx h (self t) m ->
  load_templates to_int to_float lower t ts h = Ok h' ->
  textctx h' (self t) (fun k => match first_value (rev (map (fun s => snd (load_from_string s)) ts)) k with Some v => Some v | None => m k end) /\
  length h <= length h' /\ (forall x, x < length h -> x <> self t -> nth_error h' x = nth_error h x).
Proof.
  induction ts as [|s ts IH]; intros t h h' m T E.
  - cbn in E. injection E as <-. split; [exact T|]. split; [lia|reflexivity].
  - cbn [load_templates] in E. unfold load in E. destruct (load_from_string s) as [rest e] eqn:El. unfold alloc in E. cbn [replace BaseContext] in E.
    change (map (fun kv : str * str => (fst kv, VS (SStr (snd kv)))) e) with (texts e) in E.
    destruct (match_update to_int to_float lower 5 nil true (self t) (length h) None (h ++ [CDict (texts e)])) as [h1|] eqn:Eu; [|discriminate E].
    cbn [bind snd] in E. assert (W : wf e).
    { unfold load_from_string in El. destruct (match_header s) as [[hd r]|]; injection El as _ <-; apply str_to_dict_wf. }
    destruct (text_update _ _ _ _ _ T W Eu) as (T1 & L1 & F1). destruct (IH t h1 h' _ T1 E) as (T2 & L2 & F2).
    split; [|split; [lia|]].
    + eapply textctx_ext; [|exact T2]. intros k. cbn [map]. rewrite El. cbn [rev snd].
      assert (FV : forall l, first_value (l ++ [e]) k = match first_value l k with Some v => Some v | None => lookup k e end).
      { clear. induction l as [|d l IH]; [cbn [app first_value]; destruct (lookup k e); reflexivity|]. cbn [app first_value]. rewrite IH. destruct (lookup k d); reflexivity. }
      rewrite FV. destruct (first_value _ k); [reflexivity|]. reflexivity.
    + intros x Hx Hn. rewrite F2 by (try lia; exact Hn). apply F1; assumption.
Qed.

Lemma entry_text h k (d : dict str val) td P s : holds_entry h (lookup k d) (lookup k td) P -> (lookup k d = Some (VS (SStr s)) <-> lookup k td = Some (TS (SStr s))).
Proof.
  intros H. inversion H as [E1 E2 E3|v t P' Hv E1 E2 E3]; subst; [split; discriminate|]. split; intros [= ->]; inversion Hv; subst; reflexivity.
Qed.

Lemma load_headers_ok : forall keys x header h h' d td Ps m, NoDup keys ->
  dictrep h x d td Ps -> textctx h (self header) m -> x <> self header -> (forall k, ~ Ps k (self header)) ->
  (forall k, In k keys -> header_text (lookup k td) <> None) ->
  load_headers to_int to_float lower x header keys h = Ok h' ->
  exists d' td' Ps', dictrep h' x d' td' Ps' /\
    (forall k, lookup k td' = if mem k keys then without_header (lookup k td) else lookup k td) /\
    (forall k, ~ In k keys -> lookup k d' = lookup k d) /\
    (forall k y, Ps' k y -> Ps k y) /\
    textctx h' (self header) (fun k => match first_value (rev (map (fun key => header_entries (lookup key td)) keys)) k with Some v => Some v | None => m k end) /\
    length h <= length h' /\ (forall y, y < length h -> y <> x -> y <> self header -> nth_error h' y = nth_error h y).
Proof.
  induction keys as [|key keys IH]; intros x header h h' d td Ps m Nd D T Hx Hp Hk E.
  - cbn in E. injection E as <-. exists d, td, Ps. split; [exact D|]. split; [reflexivity|]. split; [reflexivity|]. split; [auto|]. split; [exact T|]. split; [lia|reflexivity].
  - inversion Nd as [|k0 l0 Hin Nd']; subst. cbn [load_headers] in E. unfold get_dict in E. rewrite (dr_cell _ _ _ _ _ D) in E. cbn [bind] in E.
    destruct (lookup key d) as [v|] eqn:Ev; [|discriminate E]. destruct v as [sc|]; [|discriminate E]. destruct sc as [s| | | |]; try discriminate E.
    pose proof (proj1 (entry_text _ _ _ _ _ s (dr_entry _ _ _ _ _ D key)) Ev) as Et.
    assert (Hh : exists hd rest, match_header s = Some (hd, rest)).
    { pose proof (Hk key (or_introl eq_refl)) as H. unfold header_text in H. rewrite Et in H. destruct (match_header s) as [[hd rest]|]; [eauto|contradiction]. }
    destruct Hh as (hd & rest & Em). unfold load_from_string in E. rewrite Em in E.
    unfold set_entry, get_dict in E. rewrite (dr_cell _ _ _ _ _ D) in E. cbn [bind] in E. unfold alloc in E.
    set (h1 := upd h x (CDict (set key (VS (SStr rest)) d))) in *.
    pose proof (set_scalar_rep h x d td Ps key (SStr rest) D) as D1. fold h1 in D1.
    assert (Lh1 : length h1 = length h) by apply upd_length.
    assert (T1 : textctx h1 (self header) m). { eapply textctx_frame; [exact T|]. apply upd_other. congruence. }
    change (map (fun kv : str * str => (fst kv, VS (SStr (snd kv)))) (str_to_dict true hd)) with (texts (str_to_dict true hd)) in E.
    destruct (match_update to_int to_float lower 5 nil true (self header) (length h1) None (h1 ++ [CDict (texts (str_to_dict true hd))])) as [h2|] eqn:Eu; [|discriminate E].
    cbn [bind] in E. destruct (text_update _ _ _ _ _ T1 (str_to_dict_wf true hd) Eu) as (T2 & L2 & F2).
    set (Ps1 := fun k' => if eqb k' key then (fun _ : nat => False) else Ps k') in *.
    assert (D2 : dictrep h2 x (set key (VS (SStr rest)) d) (set key (TS (SStr rest)) td) Ps1).
    { pose proof (dict_holds _ _ _ _ _ D1) as H1.
      assert (H2 : holds h2 (VRef x) (TDict (set key (TS (SStr rest)) td)) (fun y => y = x \/ exists k, Ps1 k y)).
      { eapply frame; [exact H1|]. intros y Hy. apply F2; [exact (bound _ _ _ _ _ H1 Hy)|]. intros ->. destruct Hy as [Hy|[k Hy]]; [congruence|].
        unfold Ps1 in Hy. destruct (eqb k key); [exact Hy|exact (Hp k Hy)]. }
      destruct D1 as [C1 C2 C3 C4 C5 C6]. constructor; try assumption.
      - rewrite F2; [exact C1|apply (nth_lt _ _ _ C1)|congruence].
      - intros k. eapply frame_entry; [apply C4|]. intros y Hy. apply F2; [exact (bound_entry _ _ _ _ _ (C4 k) Hy)|]. intros ->. unfold Ps1 in Hy. destruct (eqb k key); [exact Hy|exact (Hp k Hy)]. }
    assert (Hmem : forall k, In k keys -> lookup k (set key (TS (SStr rest)) td) = lookup k td).
    { intros k Hi. rewrite lookup_set. destruct (eqb_spec k key) as [->|]; [contradiction|reflexivity]. }
    destruct (IH x header h2 h' _ _ Ps1 _ Nd' D2 T2 Hx) as (d' & td' & Ps' & R1 & R2 & R3 & R4 & R5 & R6 & R7).
    + intros k Hy. unfold Ps1 in Hy. destruct (eqb k key); [exact Hy|exact (Hp k Hy)].
    + intros k Hi. rewrite (Hmem k Hi). apply Hk. right. exact Hi.
    + exact E.
    + exists d', td', Ps'. split; [exact R1|]. split; [|split; [|split; [|split; [|split; [lia|]]]]].
      * intros k. rewrite R2. unfold mem at 2. cbn [existsb]. change (existsb (eqb k) keys) with (mem k keys). rewrite lookup_set.
        destruct (eqb_spec k key) as [->|Hn]; cbn [orb]; [|reflexivity].
        apply mem_not_In in Hin. rewrite Hin. unfold without_header, header_text. rewrite Et, Em. reflexivity.
      * intros k Hi. rewrite R3 by (intros Hi'; apply Hi; right; exact Hi'). rewrite lookup_set. destruct (eqb_spec k key) as [->|]; [exfalso; apply Hi; left; reflexivity|reflexivity].
      * intros k y Hy. apply R4 in Hy. unfold Ps1 in Hy. destruct (eqb k key); [contradiction|exact Hy].
      * eapply textctx_ext; [|exact R5]. intros k. cbn [map rev].
        assert (FV : forall l e, first_value (l ++ [e]) k = match first_value l k with Some v => Some v | None => lookup k e end).
        { clear. induction l as [|d l IH]; intros e; [cbn [app first_value]; destruct (lookup k e); reflexivity|]. cbn [app first_value]. rewrite IH. destruct (lookup k d); reflexivity. }
        rewrite FV. assert (Eh : map (fun key0 => header_entries (lookup key0 (set key (TS (SStr rest)) td))) keys = map (fun key0 => header_entries (lookup key0 td)) keys).
        { apply map_ext_in. intros k' Hi. rewrite (Hmem k' Hi). reflexivity. }
        rewrite Eh. destruct (first_value _ k); [reflexivity|]. unfold over, header_entries, header_text. rewrite Et, Em. reflexivity.
      * intros y Hy N1 N2. rewrite R7 by (try lia; assumption). rewrite F2 by (try lia; congruence). apply upd_other. exact N1.
Qed.

(** ** Everything *)
Lemma as_str_entries h x d td Ps : dictrep h x d td Ps ->
  forall k, In k (find_header_entries (fun v => match v with VS (SStr s) => Some s | _ => None end) d) <-> header_text (lookup k td) <> None.
Proof.
  intros D k. unfold find_header_entries. rewrite in_map_iff. split.
  - intros ([k' v] & <- & Hi). apply filter_In in Hi as [Hi Hh]. cbn [fst snd] in *. apply (In_lookup _ _ _ (dr_wf _ _ _ _ _ D)) in Hi.
    destruct v as [[s| | | |]|]; try discriminate Hh. apply (entry_text _ _ _ _ _ s (dr_entry _ _ _ _ _ D k')) in Hi.
    unfold header_text. rewrite Hi. destruct (match_header s); [discriminate|discriminate Hh].
  - unfold header_text. intros Hh. destruct (lookup k td) as [[[s| | | |]| | | |]|] eqn:Et; try contradiction.
    apply (entry_text _ _ _ _ _ s (dr_entry _ _ _ _ _ D k)) in Et. exists (k, VS (SStr s)). split; [reflexivity|]. apply filter_In. split; [apply lookup_In, Et|].
    cbn [snd]. destruct (match_header s); [reflexivity|contradiction].
Qed.

Section Files.
Context (bases : list path) (is_dir : path -> bool) (text : path -> option str) (templates_in : path -> list str) (pval : path -> scalar).
Context (Horder : forall l, Permutation (order l) l).
Lemma process_headers_ok C x h h' d F :
  holds h (VRef (self x)) (TDict d) F ->
  process_headers bases is_dir text templates_in to_int to_float lower order pval C x h = Ok h' ->
  exists keys name l d' F',
    Permutation keys (filter (fun k => match header_text (lookup k d) with Some _ => true | None => false end) (Dict.keys d)) /\
    let header := first_value (rev (map (fun key => header_entries (lookup key d)) keys)) in
    let paths := all_template_paths bases is_dir templates_in (of_str name) in
    let contexts := find_additional_context_filepaths text (rev paths) in
    let template := first_value (rev (map (fun f => snd (load_from_string (read_text text f))) contexts)) in
    template_is (header (lit "template")) (without_header (lookup (lit "template") d)) name /\
    lookup (lit "paths") d = Some (TList l) /\
    holds h' (VRef (self x)) (TDict d') F' /\
    forall k, exists m,
      Entry to_int to_float lower (mem k (replace C)) true
        (if eqb k (lit "paths") then Some (TList (map (fun p => TS (pval p)) paths ++ l)) else without_header (lookup k d))
        (as_tree (template k)) m /\
      Entry to_int to_float lower (mem k (replace C)) true m (as_tree (header k)) (lookup k d').
Proof.
  intros HF E. destruct (dict_inv _ _ _ _ HF) as (vd & Ps & D & EF). unfold process_headers in E.
  unfold get_dict at 1 in E. rewrite (dr_cell _ _ _ _ _ D) in E. cbn [bind] in E.
  destruct (lookup (lit "paths") vd) as [[|pa]|] eqn:Ep; try discriminate E. destruct (nth_error h pa) as [[l0| | |]|] eqn:Epa; try discriminate E. cbn [bind] in E.
  set (as_s := fun v : val => match v with VS (SStr s) => Some s | _ => None end) in *.
  set (keys := order (find_header_entries as_s vd)) in *.
  pose proof (as_str_entries _ _ _ _ _ D) as HK. fold as_s in HK.
  assert (PK : Permutation keys (filter (fun k => match header_text (lookup k d) with Some _ => true | None => false end) (Dict.keys d))).
  { etransitivity; [apply Horder|]. apply NoDup_Permutation.
    - unfold find_header_entries. pose proof (dr_wf _ _ _ _ _ D) as W. unfold wf, Dict.keys in W. clear -W.
      induction vd as [|[k v] r IH]; [constructor|]. cbn [map fst filter] in *. inversion W as [|k0 l1 Hn W']; subst.
      destruct (match as_s (snd (k, v)) with Some _ => _ | None => _ end); [|apply IH, W']. cbn [map fst]. constructor; [|apply IH, W'].
      intros Hi. apply Hn. apply in_map_iff in Hi as ([k' v'] & <- & Hi). apply filter_In in Hi as [Hi _]. apply in_map_iff. exists (k', v'). auto.
    - apply NoDup_filter. rewrite <- (dr_keys _ _ _ _ _ D). exact (dr_wf _ _ _ _ _ D).
    - intros k. rewrite HK, filter_In. split.
      + intros Hn. split; [|destruct (header_text (lookup k d)); [reflexivity|contradiction]].
        destruct (lookup k d) as [t|] eqn:Et; [|exfalso; apply Hn; reflexivity]. apply lookup_In in Et. apply in_map_iff. exists (k, t). auto.
      + intros [_ Hn]. destruct (header_text (lookup k d)); [discriminate|discriminate Hn]. }
  assert (Hin : forall k, In k keys <-> header_text (lookup k d) <> None).
  { intros k. rewrite <- HK. split; intros Hi; [eapply Permutation_in; [apply Horder|exact Hi]|eapply Permutation_in; [symmetry; apply Horder|exact Hi]]. }
  assert (Nd : NoDup keys).
  { eapply Permutation_NoDup; [symmetry; exact PK|]. apply NoDup_filter. rewrite <- (dr_keys _ _ _ _ _ D). exact (dr_wf _ _ _ _ _ D). }
  assert (HP : exists l P, lookup (lit "paths") d = Some (TList l) /\ holds h (VRef pa) (TList l) P).
  { pose proof (dr_entry _ _ _ _ _ D (lit "paths")) as He. rewrite Ep in He.
    destruct (lookup (lit "paths") d) as [t|]; [|inversion He].
    assert (Hv : exists P, holds h (VRef pa) t P) by (inversion He; subst; eauto). destruct Hv as [P Hv].
    destruct (list_inv _ _ _ _ _ Hv Epa) as (ts & Q & -> & _). exists ts, P. split; [reflexivity|exact Hv]. }
  destruct HP as (l & P0 & Hl & _).
  destruct (new_base h) as (hc & En & Ehc). rewrite En in E. clear En. cbn [bind] in E.
  set (h1 := h ++ [CDict nil; CDict nil]) in *. pose proof (new_base_text h) as T1. fold h1 in T1. rewrite <- Ehc in T1.
  assert (L1 : length h1 = length h + 2) by (unfold h1; rewrite app_length; reflexivity).
  assert (F1 : forall a, a < length h -> nth_error h1 a = nth_error h a) by (intros a Ha; unfold h1; apply nth_error_app1, Ha).
  assert (B : forall k y, Ps k y -> y < length h) by (intros k y Hy; exact (bound_entry _ _ _ _ _ (dr_entry _ _ _ _ _ D k) Hy)).
  assert (Lx : self x < length h) by exact (nth_lt _ _ _ (dr_cell _ _ _ _ _ D)).
  assert (D1 : dictrep h1 (self x) vd d Ps).
  { destruct D as [C1 C2 C3 C4 C5 C6]. constructor; try assumption; [rewrite F1 by exact Lx; exact C1|].
    intros k. eapply frame_entry; [apply C4|]. intros y Hy. apply F1. exact (B k y Hy). }
  destruct (load_headers to_int to_float lower (self x) hc keys h1) as [h2|] eqn:E2; [|discriminate E]. cbn [bind] in E.
  destruct (load_headers_ok keys (self x) hc h1 h2 vd d Ps (fun _ => None) Nd D1 T1) as (vd2 & d2 & Ps2 & D2 & V2 & K2 & S2 & T2 & L2 & F2).
  { rewrite Ehc. lia. }
  { intros k Hy. apply B in Hy. lia. }
  { intros k Hi. apply Hin, Hi. }
  { exact E2. }
  unfold get_dict at 1 in E. rewrite (dr_cell _ _ _ _ _ D2) in E. cbn [bind] in E.
  set (header := first_value (rev (map (fun key => header_entries (lookup key d)) keys))) in *.
  assert (T2' : textctx h2 (self hc) header). { eapply textctx_ext; [|exact T2]. intros k. cbn beta. unfold header. match goal with |- match ?a with _ => _ end = _ => destruct a end; reflexivity. } clear T2.
  destruct T2' as (hd & FH & Hh & Hm). destruct (dict_inv _ _ _ _ Hh) as (vh & Qs & Dh & EQ). unfold get_dict at 1 in E. rewrite (dr_cell _ _ _ _ _ Dh) in E. cbn [bind] in E.
  assert (T2 : textctx h2 (self hc) header) by (exists hd, FH; split; assumption).
  destruct (template_name vd2 vh) as [name|] eqn:Enm; [|discriminate E]. cbn [bind] in E.
  assert (V2' : forall k, lookup k d2 = without_header (lookup k d)).
  { intros k. rewrite V2. destruct (mem k keys) eqn:Mk; [reflexivity|]. apply mem_not_In in Mk. unfold without_header.
    destruct (header_text (lookup k d)) as [[]|] eqn:Eh; [|reflexivity]. exfalso. apply Mk, Hin. rewrite Eh. discriminate. }
  assert (Htn : template_is (header (lit "template")) (without_header (lookup (lit "template") d)) name).
  { unfold template_name in Enm. unfold template_is. rewrite <- V2'.
    pose proof (Hm (lit "template")) as Ht. pose proof (fun s => entry_text _ _ _ _ _ s (dr_entry _ _ _ _ _ Dh (lit "template"))) as Eh.
    pose proof (fun s => entry_text _ _ _ _ _ s (dr_entry _ _ _ _ _ D2 (lit "template"))) as Ed.
    assert (Hd : match lookup (lit "template") vd2 with Some (VS (SStr s)) => Ok s | _ => Raise TypeError end = Ok name -> lookup (lit "template") d2 = Some (TS (SStr name))).
    { destruct (lookup (lit "template") vd2) as [[[s| | | |]|]|]; try discriminate. intros [= <-]. apply Ed. reflexivity. }
    destruct (header (lit "template")) as [[|c s]|] eqn:Eht; cbn [as_tree] in Ht.
    - right. split; [auto|]. apply Eh in Ht. rewrite Ht in Enm. apply Hd, Enm.
    - left. apply Eh in Ht. rewrite Ht in Enm. injection Enm as <-. split; [reflexivity|discriminate].
    - right. split; [auto|]. apply Hd. rewrite <- Enm. destruct (lookup (lit "template") vh) as [[[s| | | |]|]|] eqn:Elh; try reflexivity.
      exfalso. pose proof (proj1 (Eh s) eq_refl) as X. rewrite Ht in X. discriminate X. }
  clear Enm. set (tpaths := all_template_paths bases is_dir templates_in (of_str name)) in *.
  destruct (new_base h2) as (tc & En & Etc). rewrite En in E. clear En. cbn [bind] in E.
  set (h3 := h2 ++ [CDict nil; CDict nil]) in *. pose proof (new_base_text h2) as T3. fold h3 in T3. rewrite <- Etc in T3.
  assert (L3 : length h3 = length h2 + 2) by (unfold h3; rewrite app_length; reflexivity).
  assert (F3 : forall a, a < length h2 -> nth_error h3 a = nth_error h2 a) by (intros a Ha; unfold h3; apply nth_error_app1, Ha).
  set (files := find_additional_context_filepaths text (rev tpaths)) in *.
  destruct (load_templates to_int to_float lower tc (map (read_text text) files) h3) as [h4|] eqn:E4; [|discriminate E]. cbn [bind] in E.
  destruct (load_templates_ok _ _ _ _ _ T3 E4) as (T4 & L4 & F4). rewrite map_map in T4.
  set (template := first_value (rev (map (fun f => snd (load_from_string (read_text text f))) files))) in *.
  assert (T4' : textctx h4 (self tc) template). { eapply textctx_ext; [|exact T4]. intros k. cbn beta. unfold template. match goal with |- match ?a with _ => _ end = _ => destruct a end; reflexivity. } clear T4.
  assert (B2 : forall k y, Ps2 k y -> y < length h) by (intros k y Hy; exact (B k y (S2 k y Hy))).
  assert (F4' : forall a, a < length h2 -> nth_error h4 a = nth_error h2 a). { intros a Ha. rewrite F4 by lia. apply F3, Ha. }
  assert (D4 : dictrep h4 (self x) vd2 d2 Ps2).
  { destruct D2 as [C1 C2 C3 C4 C5 C6]. constructor; try assumption; [rewrite F4' by lia; exact C1|].
    intros k. eapply frame_entry; [apply C4|]. intros y Hy. apply F4'. pose proof (B2 k y Hy). lia. }
  (* the list of paths *)
  assert (Ep2 : lookup (lit "paths") vd2 = Some (VRef pa)).
  { rewrite K2; [exact Ep|]. intros Hi. apply Hin in Hi. rewrite Hl in Hi. apply Hi. reflexivity. }
  assert (Et2 : lookup (lit "paths") d2 = Some (TList l)) by (rewrite V2', Hl; reflexivity).
  assert (HP4 : holds h4 (VRef pa) (TList l) (Ps2 (lit "paths"))).
  { pose proof (dr_entry _ _ _ _ _ D4 (lit "paths")) as He. rewrite Ep2, Et2 in He. inversion He; subst. assumption. }
  destruct (nth_error h4 pa) as [[l4| | |]|] eqn:E4p; try discriminate E. cbn [bind] in E.
  assert (Hpa : Ps2 (lit "paths") pa) by (destruct (list_inv _ _ _ _ _ HP4 E4p) as (ts & Q & _ & _ & _ & HQ); apply HQ; left; reflexivity).
  set (h5 := upd h4 pa (CList (map (fun p => VS (pval p)) tpaths ++ l4))) in *.
  assert (L5 : length h5 = length h4) by apply upd_length.
  assert (HP5 : exists P5, holds h5 (VRef pa) (TList (map (fun p => TS (pval p)) tpaths ++ l)) P5 /\ forall y, P5 y -> Ps2 (lit "paths") y).
  { destruct (list_inv _ _ _ _ _ HP4 E4p) as (ts & Q & Ets & HQ & HQa & HQs). injection Ets as <-.
    destruct (all_scalars h5 (map pval tpaths)) as (P1 & A1 & A2). rewrite !map_map in A1.
    assert (HQ5 : holds_all h5 l4 l Q). { eapply frame_items; [exact HQ|]. intros y Hy. apply upd_other. intros ->. contradiction. }
    destruct (all_app _ _ _ _ A1 _ _ _ HQ5) as (P & A3 & A4).
    exists (fun y => y = pa \/ P y). split.
    - eapply (holds_list h5 pa _ _ P); [apply upd_same; exact (nth_lt _ _ _ E4p)|exact A3|]. intros Hp. apply A4 in Hp as [Hp|Hp]; [exact (A2 pa Hp)|contradiction].
    - intros y [->|Hy]; [exact Hpa|]. apply A4 in Hy as [Hy|Hy]; [exfalso; exact (A2 y Hy)|apply HQs; auto]. }
  destruct HP5 as (P5 & HP5 & HP5s).
  assert (D5 : dictrep h5 (self x) vd2 (set (lit "paths") (TList (map (fun p => TS (pval p)) tpaths ++ l)) d2) (fun k' => if eqb k' (lit "paths") then P5 else Ps2 k')).
  { apply (place_rep h4 h5 (self x) vd2 d2 Ps2 (lit "paths") (VRef pa) _ P5 D4 Ep2 HP5); [lia| |intros y Hy; left; apply HP5s, Hy].
    intros y Hy Hn. apply upd_other. intros ->. contradiction. }
  set (d5 := set (lit "paths") (TList (map (fun p => TS (pval p)) tpaths ++ l)) d2) in *.
  set (Ps5 := fun k' => if eqb k' (lit "paths") then P5 else Ps2 k') in *.
  assert (B5 : forall k y, Ps5 k y -> y < length h). { intros k y Hy. unfold Ps5 in Hy. destruct (eqb_spec k (lit "paths")) as [->|]; [apply HP5s in Hy|]; eapply B2; exact Hy. }
  assert (T5 : textctx h5 (self tc) template).
  { eapply textctx_frame; [exact T4'|]. apply upd_other. intros Epq. apply B2 in Hpa. lia. }
  assert (T5h : textctx h5 (self hc) header).
  { eapply textctx_frame; [exact T2|]. pose proof (textctx_lt _ _ _ T2). unfold h5. rewrite upd_other by (intros Epq; apply B2 in Hpa; lia). apply F4'. lia. }
  (* the two updates *)
  destruct (match_update to_int to_float lower 5 (replace C) true (self x) (self tc) None h5) as [h6|] eqn:E6; [|discriminate E]. cbn [bind] in E.
  pose proof (dict_holds _ _ _ _ _ D5) as H5. set (F5 := fun y => y = self x \/ (exists k : str, Ps5 k y)) in *.
  assert (B5' : forall y, F5 y -> y < length h) by (intros y [->|[k Hy]]; [exact Lx|exact (B5 k y Hy)]).
  destruct T5 as (td & G & HG & Hmt).
  destruct (update_spec to_int to_float lower 5 (replace C) true (self x) (self tc) None h5 h6 d5 td F5 G H5 HG) as (d6 & F6 & U1 & U2 & _ & U4 & U5 & _ & U7).
  { intros y Hy Hg. apply B5' in Hy. rewrite (text_foot _ _ _ _ _ _ HG Hmt Hg) in Hy. lia. }
  { exact Logic.I. } { exact E6. }
  assert (T6 : textctx h6 (self hc) header).
  { eapply textctx_frame; [exact T5h|]. apply U5; [exact (textctx_lt _ _ _ T5h)|]. intros Hf. apply B5' in Hf. lia. }
  destruct T6 as (td6 & G6 & HG6 & Hm6).
  assert (B6 : forall y, F6 y -> y < length h \/ length h5 <= y).
  { intros y Hy. apply U7 in Hy as [Hy|Hy]; [left; exact (B5' y Hy)|right; exact Hy|]. intros k t Et. rewrite Hmt in Et. destruct (template k); [|discriminate Et]. injection Et as <-. exact Logic.I. }
  destruct (update_spec to_int to_float lower 5 (replace C) true (self x) (self hc) None h6 h' d6 td6 F6 G6 U1 HG6) as (d7 & F7 & W1 & W2 & _).
  { intros y Hy Hg. rewrite (text_foot _ _ _ _ _ _ HG6 Hm6 Hg) in Hy. apply B6 in Hy. pose proof (textctx_lt _ _ _ T5h). lia. }
  { exact Logic.I. } { exact E. }
  exists keys, name, l, d7, F7. split; [exact PK|]. cbn zeta. split; [exact Htn|]. split; [exact Hl|]. split; [exact W1|].
  intros k. exists (lookup k d6). split.
  - specialize (U2 k Logic.I). rewrite Hmt in U2. unfold d5 in U2. rewrite lookup_set in U2. rewrite V2' in U2. exact U2.
  - specialize (W2 k Logic.I). rewrite Hm6 in W2. exact W2.
Qed.
End Files.
End Contexts.
