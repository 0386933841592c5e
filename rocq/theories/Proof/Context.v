(** Proofs about contexts *)
From Coq Require Import List Bool Arith NArith ZArith Lia.
From Verif.Base Require Import Str StrFacts Dict DictFacts Result PyText.
From Verif.Model Require Import StringUtils StrToDict Context.
From Verif.Spec Require Import Context.
Import ListNotations.

Lemma ok_inj {A} (x y : A) : Ok x = Ok y -> x = y.
Proof. congruence. Qed.

(** * The heap *)
Lemma upd_length (h : list cell) : forall a c, length (upd h a c) = length h.
Proof. induction h as [|x h IH]; intros [|a] c; cbn; auto. Qed.
Lemma upd_same (h : list cell) : forall a c, a < length h -> nth_error (upd h a c) a = Some c.
Proof. induction h as [|x h IH]; intros [|a] c H; cbn in *; try lia; auto. apply IH. lia. Qed.
Lemma upd_other (h : list cell) : forall a c x, x <> a -> nth_error (upd h a c) x = nth_error h x.
Proof. induction h as [|y h IH]; intros [|a] c [|x] H; cbn; auto; congruence. Qed.
Lemma alloc_old (h : list cell) c x : x < length h -> nth_error (h ++ [c]) x = nth_error h x.
Proof. intros H. now rewrite nth_error_app1. Qed.
Lemma alloc_new h (c : cell) : nth_error (h ++ [c]) (length h) = Some c.
Proof. rewrite nth_error_app2 by lia. now rewrite Nat.sub_diag. Qed.
Lemma app1_length (h : list cell) c : length (h ++ [c]) = S (length h).
Proof. rewrite app_length. cbn. lia. Qed.
Lemma nth_lt (h : list cell) a c : nth_error h a = Some c -> a < length h.
Proof. intros H. apply nth_error_Some. congruence. Qed.

Scheme holds_ind3 := Minimality for holds Sort Prop
with holds_all_ind3 := Minimality for holds_all Sort Prop
with holds_entry_ind3 := Minimality for holds_entry Sort Prop.
Combined Scheme holds_mutind from holds_ind3, holds_all_ind3, holds_entry_ind3.

Lemma frame_all h h' :
  (forall v t P, holds h v t P -> (forall x, P x -> nth_error h' x = nth_error h x) -> holds h' v t P) /\
  (forall l ts P, holds_all h l ts P -> (forall x, P x -> nth_error h' x = nth_error h x) -> holds_all h' l ts P) /\
  (forall v t P, holds_entry h v t P -> (forall x, P x -> nth_error h' x = nth_error h x) -> holds_entry h' v t P).
Proof.
  apply holds_mutind; intros.
  - constructor.
  - apply holds_list with (l := l); [rewrite H3; auto|apply H1; auto|auto].
  - apply holds_set. rewrite H0; auto.
  - apply holds_dict with (d := d); auto.
    + rewrite H6; auto.
    + intros k. apply H3. intros x Hx. apply H6. right. eauto.
  - apply holds_tag with (ctx := ctx). rewrite H0; auto.
  - constructor.
  - constructor; auto.
  - constructor.
  - constructor; auto.
Qed.
Lemma frame h h' v t P : holds h v t P -> (forall x, P x -> nth_error h' x = nth_error h x) -> holds h' v t P.
Proof. intros H. exact (proj1 (frame_all h h') v t P H). Qed.
Lemma frame_entry h h' v t P : holds_entry h v t P -> (forall x, P x -> nth_error h' x = nth_error h x) -> holds_entry h' v t P.
Proof. intros H. exact (proj2 (proj2 (frame_all h h')) v t P H). Qed.
Lemma frame_items h h' v t P : holds_all h v t P -> (forall x, P x -> nth_error h' x = nth_error h x) -> holds_all h' v t P.
Proof. intros H. exact (proj1 (proj2 (frame_all h h')) v t P H). Qed.

Lemma bound_all h :
  (forall v t P, holds h v t P -> forall x, P x -> x < length h) /\
  (forall l ts P, holds_all h l ts P -> forall x, P x -> x < length h) /\
  (forall v t P, holds_entry h v t P -> forall x, P x -> x < length h).
Proof.
  apply holds_mutind; intros; try contradiction; try (subst; eapply nth_lt; eassumption).
  - destruct H3 as [->|]; [eapply nth_lt; eassumption|auto].
  - destruct H6 as [->|[k Hk]]; [eapply nth_lt; eassumption|eauto].
  - destruct H3; auto.
  - auto.
Qed.
Lemma bound h v t P x : holds h v t P -> P x -> x < length h.
Proof. intros H. exact (proj1 (bound_all h) v t P H x). Qed.
Lemma bound_entry h v t P x : holds_entry h v t P -> P x -> x < length h.
Proof. intros H. exact (proj2 (proj2 (bound_all h)) v t P H x). Qed.
Lemma bound_items h v t P x : holds_all h v t P -> P x -> x < length h.
Proof. intros H. exact (proj1 (proj2 (bound_all h)) v t P H x). Qed.

(** * Dictionaries on the heap *)
Record dictrep (h : list cell) (a : nat) (d : dict str val) (td : dict str tree) (Ps : str -> nat -> Prop) : Prop := {
  dr_cell : nth_error h a = Some (CDict d);
  dr_wf : wf d;
  dr_keys : keys d = keys td;
  dr_entry : forall k, holds_entry h (lookup k d) (lookup k td) (Ps k);
  dr_self : forall k, ~ Ps k a;
  dr_sep : forall k1 k2 x, Ps k1 x -> Ps k2 x -> k1 = k2 }.

Lemma dict_inv h a td F : holds h (VRef a) (TDict td) F ->
  exists d Ps, dictrep h a d td Ps /\ F = (fun x => x = a \/ exists k, Ps k x).
Proof. intros H. inversion H; subst. exists d, Ps. split; [constructor; auto|reflexivity]. Qed.
Lemma dict_holds h a d td Ps : dictrep h a d td Ps -> holds h (VRef a) (TDict td) (fun x => x = a \/ exists k, Ps k x).
Proof. intros []. eapply holds_dict; eauto. Qed.

Lemma dictrep_upd h h2 a d td Ps k v' t' Pk :
  dictrep h a d td Ps -> nth_error h2 a = Some (CDict (set k v' d)) ->
  (forall k' x, k' <> k -> Ps k' x -> nth_error h2 x = nth_error h x) ->
  holds h2 v' t' Pk -> ~ Pk a -> (forall k' x, k' <> k -> Pk x -> Ps k' x -> False) ->
  dictrep h2 a (set k v' d) (set k t' td) (fun k' => if eqb k' k then Pk else Ps k').
Proof.
  intros D Hc Hf Hv Ha Hs. destruct D as [D1 D2 D3 D4 D5 D6]. constructor; auto.
  - now apply wf_set.
  - rewrite !keys_set. unfold has. rewrite D3.
    assert (E : (match lookup k d with Some _ => true | None => false end) =
                (match lookup k td with Some _ => true | None => false end)).
    { pose proof (D4 k) as H. inversion H; reflexivity. }
    rewrite E. reflexivity.
  - intros k'. destruct (eqb_spec k' k) as [->|N].
    + rewrite !lookup_set_eq. now constructor.
    + rewrite !lookup_set_neq by auto. apply frame_entry with (h := h); eauto.
  - intros k'. destruct (eqb_spec k' k) as [->|N]; auto.
  - intros k1 k2 x. destruct (eqb_spec k1 k) as [->|N1], (eqb_spec k2 k) as [->|N2]; intros H1 H2; auto.
    + exfalso. eapply (Hs k2); eauto.
    + exfalso. eapply (Hs k1); eauto.
    + eauto.
Qed.

(** No change *)
Lemma dictrep_same h a d td Ps k : dictrep h a d td Ps ->
  dictrep h a d td (fun k' => if eqb k' k then Ps k else Ps k').
Proof.
  intros [D1 D2 D3 D4 D5 D6]. constructor; auto.
  - intros k'. destruct (eqb_spec k' k) as [->|N]; auto.
  - intros k'. destruct (eqb_spec k' k) as [->|N]; auto.
  - intros k1 k2 x. destruct (eqb_spec k1 k) as [->|N1], (eqb_spec k2 k) as [->|N2]; intros H1 H2; eauto.
Qed.

Lemma flat_foot h v t P x : holds h v t P -> flat t -> P x -> v = VRef x.
Proof.
  intros H Hf Hx. inversion H; subst; try contradiction.
  - destruct Hx as [->|Hx]; auto. exfalso. cbn in Hf. revert Hx. clear - H1 Hf.
    induction H1 as [|v t P l ts Q Hv Hl IH]; [auto|]. inversion Hf; subst. destruct H1 as [s ->].
    inversion Hv; subst. intros [[]|]; auto.
  - auto.
  - destruct Hx as [->|[k Hk]]; auto. exfalso. pose proof (H3 k) as He. cbn in Hf. inversion He as [E1 E2 E3|v t P Hh E1 E2 E3].
    + rewrite <- E3 in Hk. exact Hk.
    + destruct (Hf k t (eq_sym E2)) as [s ->]. inversion Hh; subst. rewrite <- H9 in Hk. exact Hk.
  - auto.
Qed.

(** * The parts of an update *)
Lemma copy_spec h self v t P : holds h v t P ->
  exists P', holds (snd (copy_val h self v)) (fst (copy_val h self v)) t P' /\
    (forall x, P' x -> (P x /\ v <> VRef x) \/ x = length h) /\
    length h <= length (snd (copy_val h self v)) /\
    (forall x, x < length h -> nth_error (snd (copy_val h self v)) x = nth_error h x).
Proof.
  intros H. inversion H; subst; cbn [copy_val].
  - exists (fun _ => False). cbn. split; [constructor|]. split; [tauto|]. split; [lia|auto].
  - rewrite H0. cbn. exists (fun x => x = length h \/ P0 x). split; [|split; [|split]].
    + apply holds_list with (l := l); [apply alloc_new| |].
      * eapply frame_items; [exact H1|]. intros x Hx. apply alloc_old. eapply bound_items; eauto.
      * intros Hx. apply (bound_items _ _ _ _ _ H1) in Hx. lia.
    + intros x [->|Hx]; auto. left. split; auto. intros Ea. injection Ea as ->. tauto.
    + rewrite app1_length. lia.
    + intros. now apply alloc_old.
  - rewrite H0. cbn. exists (fun x => x = length h). split; [|split; [|split]].
    + apply holds_set. apply alloc_new.
    + intros x ->; auto.
    + rewrite app1_length. lia.
    + intros. now apply alloc_old.
  - rewrite H0. cbn. exists (fun x => x = length h \/ exists k, Ps k x). split; [|split; [|split]].
    + apply holds_dict with (d := d); auto; [apply alloc_new| |].
      * intros k. eapply frame_entry; [apply H3|]. intros x Hx. apply alloc_old. eapply bound_entry; eauto.
      * intros k Hk. apply (bound_entry _ _ _ _ _ (H3 k)) in Hk. lia.
    + intros x [->|[k Hk]]; auto. left. split; [right; eauto|]. intros Ea. injection Ea as ->. eapply H4; eauto.
    + rewrite app1_length. lia.
    + intros. now apply alloc_old.
  - rewrite H0. cbn. exists (fun x => x = length h). split; [|split; [|split]].
    + eapply holds_tag. apply alloc_new.
    + intros x ->; auto.
    + rewrite app1_length. lia.
    + intros. now apply alloc_old.
Qed.

Lemma clear_spec h o t P : holds h o t P ->
  exists P', holds (clear h o) o (cleared t) P' /\ (forall x, P' x -> P x) /\
    length (clear h o) = length h /\ (forall x, ~ P x -> nth_error (clear h o) x = nth_error h x).
Proof.
  intros H. inversion H; subst; cbn [clear cleared].
  - exists (fun _ => False). split; [constructor|]. split; [tauto|]. auto.
  - rewrite H0. exists (fun x => x = a \/ False). split; [|split; [|split]].
    + eapply holds_list; [apply upd_same; eapply nth_lt; eauto|constructor|tauto].
    + tauto.
    + apply upd_length.
    + intros x Hx. apply upd_other. tauto.
  - rewrite H0. exists (fun x => x = a). split; [|split; [|split]].
    + apply (holds_set _ a nil). apply upd_same; eapply nth_lt; eauto.
    + tauto.
    + apply upd_length.
    + intros x Hx. apply upd_other. tauto.
  - rewrite H0. exists (fun x => x = a \/ exists k : str, False). split; [|split; [|split]].
    + eapply (holds_dict _ a nil nil (fun _ _ => False)); auto.
      * apply upd_same; eapply nth_lt; eauto.
      * constructor.
      * intros k. constructor.
      * tauto.
    + intros x [->|[? []]]; auto.
    + apply upd_length.
    + intros x Hx. apply upd_other. tauto.
  - rewrite H0. exists (fun x => x = a). split; [|split; [|split]]; auto.
Qed.

Lemma all_scalars h (l : list scalar) : exists P, holds_all h (map VS l) (map TS l) P /\ forall x, ~ P x.
Proof.
  induction l as [|s l (P & H1 & H2)]; cbn.
  - exists (fun _ => False). split; [constructor|tauto].
  - exists (fun x => False \/ P x). split; [constructor; [constructor|exact H1]|]. firstorder.
Qed.

Lemma all_app h l1 ts1 P1 : holds_all h l1 ts1 P1 -> forall l2 ts2 P2, holds_all h l2 ts2 P2 ->
  exists P, holds_all h (l1 ++ l2) (ts1 ++ ts2) P /\ forall x, P x -> P1 x \/ P2 x.
Proof.
  induction 1 as [|v t P l ts Q Hv Hl IH]; intros l2 ts2 P2 H2; cbn.
  - exists P2. auto.
  - destruct (IH _ _ _ H2) as (R & HR & HRi). exists (fun x => P x \/ R x). split; [constructor; auto|].
    intros x [?|?]; auto. apply HRi in H. tauto.
Qed.

Lemma to_list_spec h v t Q items : holds h v t Q -> to_list h v = Ok items ->
  exists ts Q', items_of t = Some ts /\ holds_all h items ts Q' /\ forall x, Q' x -> Q x /\ v <> VRef x.
Proof.
  intros H E. inversion H; subst; cbn in E; try rewrite H0 in E; try discriminate.
  - destruct s; try discriminate. apply (f_equal (fun r => match r with Ok l => l | _ => nil end)) in E. subst items.
    destruct (all_scalars h (map SStr (str_to_list s))) as (P & H1 & H2). rewrite !map_map in H1.
    exists (map (fun x => TS (SStr x)) (str_to_list s)), P. split; [reflexivity|]. split; [exact H1|]. intros x Hx. now apply H2 in Hx.
  - injection E as <-. exists ts, P. split; [reflexivity|]. split; [exact H1|].
    intros x Hx. split; auto. intros Ea. injection Ea as ->. tauto.
  - injection E as <-. destruct (all_scalars h l) as (P & H1 & H2).
    exists (map TS l), P. split; [reflexivity|]. split; [exact H1|]. intros x Hx. now apply H2 in Hx.
  - apply (f_equal (fun r => match r with Ok l => l | _ => nil end)) in E. subst items.
    destruct (all_scalars h (map SStr (keys d))) as (P & P1 & P2). rewrite !map_map in P1.
    exists (map (fun k => TS (SStr k)) (keys d)), P. cbn [items_of]. rewrite H2. split; [reflexivity|]. rewrite <- H2.
    split; [|intros x Hx; now apply P2 in Hx]. unfold keys in *. rewrite ?map_map in *. exact P1.
Qed.

Lemma hashable_scalars items : forallb hashable items = true -> exists l, items = map VS l.
Proof.
  induction items as [|[s|a] r IH]; cbn; intros H; try discriminate.
  - exists nil. reflexivity.
  - destruct (IH H) as [l ->]. exists (s :: l). reflexivity.
Qed.
Lemma holds_all_scalars h l ts P : holds_all h (map VS l) ts P -> ts = map TS l.
Proof.
  revert ts P. induction l as [|s l IH]; cbn; intros ts P H; inversion H; subst; auto.
  cbn. inversion H2; subst. f_equal. eauto.
Qed.
Lemma add_items_union l m : add_items (map VS l) (map VS m) = map VS (union l m).
Proof.
  revert l. induction m as [|x m IH]; intros l; cbn; auto.
  assert (E : existsb (eqb_val (VS x)) (map VS l) = existsb (eqb_scalar x) l).
  { clear. induction l; cbn; congruence. }
  rewrite E. destruct (existsb (eqb_scalar x) l); [apply IH|].
  change [VS x] with (map VS [x]). rewrite <- map_app. apply IH.
Qed.

Lemma sd_line_wf st line : wf (fst (fst st)) -> wf (fst (fst (sd_line st line))).
Proof.
  destruct st as [[d cur] sp]. cbn [fst]. intros W. unfold sd_line.
  assert (A : forall l c s, wf d -> wf (fst (fst (append_line l (d, c, s))))).
  { intros l [c|] s Hw; cbn; auto. now apply wf_set. }
  destruct (match_entry line) as [[[n k] v]|]; [|apply A; auto].
  destruct (match sp with Some m => Nat.ltb m n | None => false end); [apply A; auto|].
  cbn. apply wf_set. destruct (lookup (strip k) d); auto. now apply wf_set.
Qed.
Lemma str_to_dict_wf q s : wf (str_to_dict q s).
Proof.
  unfold str_to_dict.
  assert (G : forall l st, wf (fst (fst st)) -> wf (fst (fst (fold_left sd_line l st)))).
  { induction l as [|x l IH]; cbn; intros st W; auto. apply IH. now apply sd_line_wf. }
  specialize (G (splitlines s) (nil, None, None)).
  destruct (fold_left sd_line (splitlines s) (nil, None, None)) as [[d c] sp].
  unfold wf, keys in *. rewrite map_map. cbn in *. apply G. constructor.
Qed.

(** A dictionary of texts *)
Definition texts (d : dict str str) : dict str val := map (fun kv => (fst kv, VS (SStr (snd kv)))) d.
Definition ttexts (d : dict str str) : dict str tree := map (fun kv => (fst kv, TS (SStr (snd kv)))) d.
Lemma lookup_map_snd {A B} (f : A -> B) (d : dict str A) k :
  lookup k (map (fun kv => (fst kv, f (snd kv))) d) = option_map f (lookup k d).
Proof. induction d as [|[k' v] d IH]; cbn; auto. destruct (eqb_spec k k'); auto. Qed.
Lemma texts_rep h a d : nth_error h a = Some (CDict (texts d)) -> wf d ->
  dictrep h a (texts d) (ttexts d) (fun _ _ => False).
Proof.
  intros H W. constructor; auto; try tauto.
  - unfold wf, keys, texts. rewrite map_map. exact W.
  - unfold keys, texts, ttexts. now rewrite !map_map.
  - intros k. unfold texts, ttexts. rewrite !(lookup_map_snd (fun s => VS (SStr s))), !(lookup_map_snd (fun s => TS (SStr s))).
    destruct (lookup k d); cbn; constructor. constructor.
Qed.

Lemma dict_alloc h b d td Ps : dictrep h b d td Ps ->
  dictrep (h ++ [CDict d]) (length h) d td Ps.
Proof.
  intros [D1 D2 D3 D4 D5 D6]. constructor; auto.
  - apply alloc_new.
  - intros k. eapply frame_entry; [apply D4|]. intros x Hx. apply alloc_old. eapply bound_entry; eauto.
  - intros k Hk. apply (bound_entry _ _ _ _ _ (D4 k)) in Hk. lia.
Qed.

(** The dictionary of a change, as it is passed to the recursive call *)
Lemma to_dict_spec h v t Q c : holds h v t Q -> to_dict h v = Ok c ->
  exists tc Qs, entries_of t = Some tc /\ dictrep (h ++ [CDict c]) (length h) c tc Qs /\ (forall k x, Qs k x -> Q x /\ v <> VRef x).
Proof.
  intros H E. inversion H; subst; cbn in E; try rewrite H0 in E; try discriminate.
  - destruct s; try discriminate.
    assert (Ec : c = texts (str_to_dict true s)) by (injection E as <-; reflexivity). subst c.
    exists (ttexts (str_to_dict true s)), (fun _ _ => False). split; [reflexivity|]. split; [|tauto].
    apply texts_rep; [apply alloc_new|apply str_to_dict_wf].
  - destruct l; [|discriminate]. injection E as <-. inversion H1; subst. exists nil, (fun _ _ => False).
    split; [reflexivity|]. split; [|tauto]. exact (texts_rep _ _ nil (alloc_new h _) (NoDup_nil _)).
  - destruct l; [|discriminate]. injection E as <-. exists nil, (fun _ _ => False).
    split; [reflexivity|]. split; [|tauto]. exact (texts_rep _ _ nil (alloc_new h _) (NoDup_nil _)).
  - injection E as <-. exists td, Ps. split; [reflexivity|]. split; [|intros k x Hx; split; [eauto|intros Ea; injection Ea as ->; eapply H4; eauto]].
    apply (dict_alloc h a). constructor; auto.
Qed.

Section Update.
Variables (to_int : scalar -> result Z) (to_float : scalar -> result N) (lower : str -> str).
Notation convert := (convert to_int to_float lower).
Notation update_key := (update_key to_int to_float lower).
Notation update_keys := (update_keys to_int to_float lower).
Notation match_update := (match_update to_int to_float lower).
Notation Updated := (Updated to_int to_float lower).
Notation Entry := (Entry to_int to_float lower).
Notation Converted := (Converted to_int to_float lower).

Lemma convert_spec h o v t Q v' : holds h v t Q -> convert o v = Ok v' ->
  exists r, v' = VS r /\ Converted o t r.
Proof.
  intros H E. destruct o as [s|z|b|f|ty n]; cbv beta iota zeta delta [Context.convert] in E.
  - destruct v as [x|a].
    + inversion H; subst. injection E as <-. destruct x; cbn; eexists; (split; [reflexivity|]); constructor; congruence.
    + injection E as <-. exists (SStr s). split; auto. constructor. intros s' ->. inversion H.
  - destruct v as [x|a]; [|discriminate]. inversion H; subst.
    destruct (to_int x) as [z'|e] eqn:Ei; [injection E as <-; eexists; split; [reflexivity|now constructor]|].
    destruct e; try discriminate. injection E as <-. eexists; split; [reflexivity|now constructor].
  - destruct v as [x|a]; [|discriminate]. inversion H; subst.
    destruct x as [s| | | |]; try discriminate.
    destruct (eqb_spec (strip (lower s)) (lit "false")) as [E1|E1].
    + apply ok_inj in E. subst v'. eexists; split; [reflexivity|now constructor].
    + destruct (eqb_spec (strip (lower s)) (lit "true")) as [E2|E2]; apply ok_inj in E; subst v';
        (eexists; split; [reflexivity|now constructor]).
  - destruct v as [x|a]; [|discriminate]. inversion H; subst.
    destruct (to_float x) as [z'|e] eqn:Ei; [injection E as <-; eexists; split; [reflexivity|now constructor]|].
    destruct e; try discriminate. injection E as <-. eexists; split; [reflexivity|now constructor].
  - destruct v as [x|a].
    + inversion H; subst. injection E as <-. destruct x as [| | | |ty' n']; cbn; try (eexists; (split; [reflexivity|]); constructor; congruence).
      destruct (Nat.eqb_spec ty ty') as [->|N]; eexists; (split; [reflexivity|]); constructor; congruence.
    + injection E as <-. exists (SOpq ty n). split; auto. constructor. intros s' ->. inversion H.
Qed.

Definition rec_ok (rec : list cell -> nat -> nat -> result (list cell)) : Prop :=
  forall h a b h' d c F G,
    holds h (VRef a) (TDict d) F -> holds h (VRef b) (TDict c) G -> (forall x, F x -> G x -> False) ->
    rec h a b = Ok h' ->
    exists d' F', holds h' (VRef a) (TDict d') F' /\
      (forall k, Entry false true (lookup k d) (lookup k c) (lookup k d')) /\
      length h <= length h' /\
      (forall x, x < length h -> ~ F x -> nth_error h' x = nth_error h x) /\
      (forall x, F' x -> F x \/ (G x /\ x <> b) \/ length h <= x).

(** The update of an existing value in place (context.py:434-470) *)
Lemma value_spec rec h1 a t1 P1 v t Q h' :
  rec_ok rec -> holds h1 (VRef a) t1 P1 -> holds h1 v t Q -> (forall x, P1 x -> Q x -> False) ->
  (match nth_error h1 a with
   | Some (CList l) => do items <- to_list h1 v ; Ok (upd h1 a (CList (items ++ l)))
   | Some (CSet l) =>
       do items <- to_list h1 v ;
       if forallb hashable items then Ok (upd h1 a (CSet (add_items l items))) else Raise TypeError
   | Some (CDict _) =>
       do c' <- to_dict h1 v ;
       let '(b, h2) := alloc h1 (CDict c') in rec h2 a b
   | _ => Raise OtherError
   end) = Ok h' ->
  exists r P', holds h' (VRef a) r P' /\ Updated t1 t r /\ length h1 <= length h' /\
    (forall x, x < length h1 -> ~ P1 x -> nth_error h' x = nth_error h1 x) /\
    (forall x, P' x -> P1 x \/ (Q x /\ v <> VRef x) \/ length h1 <= x).
Proof.
  intros R H1 Hv Hd E. inversion H1; subst.
  - rewrite H0 in E. destruct (to_list h1 v) as [items|] eqn:El; [|discriminate]. apply ok_inj in E. subst h'.
    destruct (to_list_spec _ _ _ _ _ Hv El) as (its & Q' & I1 & I2 & I3).
    destruct (all_app _ _ _ _ I2 _ _ _ H2) as (R' & A1 & A2).
    assert (Na : ~ R' a). { intros Ha. destruct (A2 a Ha) as [Hq|]; [apply I3 in Hq; eapply Hd; [left; reflexivity|apply Hq]|tauto]. }
    exists (TList (its ++ ts)), (fun x => x = a \/ R' x). split; [|split; [|split; [|split]]].
    + eapply holds_list; [apply upd_same; eapply nth_lt; eauto| |exact Na].
      eapply frame_items; [exact A1|]. intros x Hx. apply upd_other. intros ->; tauto.
    + now constructor.
    + rewrite upd_length. lia.
    + intros x _ Hx. apply upd_other. tauto.
    + intros x [->|Hx]; [tauto|]. destruct (A2 x Hx); auto.
  - rewrite H0 in E. destruct (to_list h1 v) as [items|] eqn:El; [|discriminate]. cbn [bind] in E.
    destruct (forallb hashable items) eqn:Eh; [|discriminate]. apply ok_inj in E. subst h'.
    destruct (hashable_scalars _ Eh) as [m ->].
    destruct (to_list_spec _ _ _ _ _ Hv El) as (its & Q' & I1 & I2 & I3).
    pose proof (holds_all_scalars _ _ _ _ I2) as ->.
    exists (TSet (union l m)), (fun x => x = a). split; [|split; [|split; [|split]]].
    + apply holds_set. rewrite add_items_union. apply upd_same. eapply nth_lt; eauto.
    + now constructor.
    + rewrite upd_length. lia.
    + intros x _ Hx. apply upd_other. tauto.
    + tauto.
  - rewrite H0 in E. destruct (to_dict h1 v) as [c|] eqn:Ec; [|discriminate]. cbn [bind alloc] in E.
    destruct (to_dict_spec _ _ _ _ _ Hv Ec) as (tc & Qs & C1 & C2 & C3).
    set (h2 := h1 ++ [CDict c]) in *.
    assert (Hext : forall x, x < length h1 -> nth_error h2 x = nth_error h1 x) by (intros; now apply alloc_old).
    assert (H1' : holds h2 (VRef a) (TDict td) (fun x => x = a \/ (exists k, Ps k x))).
    { eapply frame; [exact H1|]. intros x Hx. apply Hext. exact (bound _ _ _ _ _ H1 Hx). }
    assert (Hdis : forall x, (x = a \/ (exists k, Ps k x)) -> (x = length h1 \/ (exists k, Qs k x)) -> False).
    { intros x Hx [->|[k Hk]]; [apply (bound _ _ _ _ _ H1) in Hx; lia|exact (Hd x Hx (proj1 (C3 k x Hk)))]. }
    destruct (R _ _ _ _ _ _ _ _ H1' (dict_holds _ _ _ _ _ C2) Hdis E) as (d' & F' & R1 & R2 & R3 & R4 & R5).
    assert (L2 : length h2 = S (length h1)) by apply app1_length.
    exists (TDict d'), F'. split; [exact R1|]. split; [econstructor; eauto|]. split; [lia|]. split.
    + intros x Hx Hn. rewrite R4 by (auto; lia). now apply Hext.
    + intros x Hx. destruct (R5 x Hx) as [?|[[[->|[k Hk]] Hn]|?]]; [auto|congruence|right; left; eauto|right; right; lia].
  - rewrite H0 in E. discriminate.
Qed.

Lemma entry_inv_some h k d td Ps v : holds_entry h (@lookup str _ val k d) (lookup k td) Ps -> lookup k d = Some v ->
  exists t, lookup k td = Some t /\ holds h v t Ps.
Proof. intros H E. rewrite E in H. inversion H; subst. eauto. Qed.
Lemma entry_inv_none h k d td Ps : holds_entry h (@lookup str _ val k d) (lookup k td) Ps -> lookup k d = None ->
  lookup k td = None.
Proof. intros H E. rewrite E in H. inversion H; subst. auto. Qed.

(** One key *)
Lemma key_spec rec rp over self ch h k h' d td Ps c tc Qs :
  rec_ok rec -> dictrep h self d td Ps -> dictrep h ch c tc Qs ->
  (forall k' x, Ps k' x -> Qs k x -> False) -> (forall k' x, Ps k x -> Qs k' x -> False) ->
  ~ Ps k ch -> (forall k', ~ Qs k' self) -> ch <> self ->
  update_key rec rp over self ch h k = Ok h' ->
  exists d' td' Pk, dictrep h' self d' td' (fun k' => if eqb k' k then Pk else Ps k') /\
    Entry (mem k rp) over (lookup k td) (lookup k tc) (lookup k td') /\
    (forall k', k' <> k -> lookup k' td' = lookup k' td) /\
    length h <= length h' /\
    (forall x, x < length h -> x <> self -> ~ Ps k x -> nth_error h' x = nth_error h x) /\
    (forall x, Pk x -> Ps k x \/ (Qs k x /\ lookup k c <> Some (VRef x)) \/ length h <= x).
Proof.
  intros R D C HA HB HC1 HC2 HC3 E. unfold Context.update_key in E.
  unfold get_dict at 1 in E. rewrite (dr_cell _ _ _ _ _ C) in E. cbn [bind] in E.
  destruct (lookup k c) as [v|] eqn:Ev.
  2:{ apply ok_inj in E. subst h'. exists d, td, (Ps k). split; [now apply dictrep_same|].
      rewrite (entry_inv_none _ _ _ _ _ (dr_entry _ _ _ _ _ C k) Ev).
      split; [constructor|]. split; [auto|]. split; [lia|]. split; auto. }
  destruct (entry_inv_some _ _ _ _ _ _ (dr_entry _ _ _ _ _ C k) Ev) as (t & Et & Hv). rewrite Et.
  unfold get_dict at 1 in E. rewrite (dr_cell _ _ _ _ _ D) in E. cbn [bind] in E.
  assert (Ls : self < length h) by (eapply nth_lt; apply (dr_cell _ _ _ _ _ D)).
  destruct (lookup k d) as [o|] eqn:Eo.
  - destruct (entry_inv_some _ _ _ _ _ _ (dr_entry _ _ _ _ _ D k) Eo) as (to & Eto & Ho). rewrite Eto.
    destruct over; cbn [negb] in E.
    2:{ apply ok_inj in E. subst h'. exists d, td, (Ps k). split; [now apply dictrep_same|].
        rewrite Eto. split; [constructor|]. split; [auto|]. split; [lia|]. split; auto. }
    set (h1 := if mem k rp then clear h o else h) in *.
    set (t1 := if mem k rp then cleared to else to).
    assert (Hc : exists P1, holds h1 o t1 P1 /\ (forall x, P1 x -> Ps k x) /\ length h1 = length h /\
                            (forall x, ~ Ps k x -> nth_error h1 x = nth_error h x)).
    { subst h1 t1. destruct (mem k rp).
      - destruct (clear_spec _ _ _ _ Ho) as (P1 & ? & ? & ? & ?). exists P1. auto.
      - exists (Ps k). auto. }
    destruct Hc as (P1 & H1 & H1i & L1 & F1).
    assert (Hv1 : holds h1 v t (Qs k)).
    { eapply frame; [exact Hv|]. intros x Hx. apply F1. intros Hp. eapply HB; eauto. }
    assert (Cself : nth_error h1 self = Some (CDict d)).
    { rewrite F1; [apply (dr_cell _ _ _ _ _ D)|apply (dr_self _ _ _ _ _ D)]. }
    (* the value is changed in place *)
    assert (Place : forall r P', holds h' o r P' -> Updated t1 t r -> length h1 <= length h' ->
      (forall x, x < length h1 -> ~ P1 x -> nth_error h' x = nth_error h1 x) ->
      (forall x, P' x -> P1 x \/ (Qs k x /\ v <> VRef x) \/ length h1 <= x) ->
      exists d' td' Pk, dictrep h' self d' td' (fun k' => if eqb k' k then Pk else Ps k') /\
        Entry (mem k rp) true (Some to) (Some t) (lookup k td') /\
        (forall k', k' <> k -> lookup k' td' = lookup k' td) /\
        length h <= length h' /\
        (forall x, x < length h -> x <> self -> ~ Ps k x -> nth_error h' x = nth_error h x) /\
        (forall x, Pk x -> Ps k x \/ (Qs k x /\ Some v <> Some (VRef x)) \/ length h <= x)).
    { intros r P' Hr Hu Hl Hf Hi.
      assert (Hf' : forall x, x < length h -> ~ Ps k x -> nth_error h' x = nth_error h x).
      { intros x Hx Hn. rewrite Hf; [now apply F1|lia|auto]. }
      exists (set k o d), (set k r td), P'. split; [|split; [|split; [|split; [|split]]]].
      - apply (dictrep_upd h); auto.
        + rewrite (set_same _ _ _ Eo). rewrite Hf' by (auto; apply (dr_self _ _ _ _ _ D)). apply (dr_cell _ _ _ _ _ D).
        + intros k' x Hk Hx. apply Hf'; [eapply bound_entry; [apply (dr_entry _ _ _ _ _ D k')|auto]|].
          intros Hx'. apply Hk. eapply (dr_sep _ _ _ _ _ D); eauto.
        + intros Hs. destruct (Hi _ Hs) as [Hq|[[Hq _]|Hq]]; [apply (dr_self _ _ _ _ _ D k); auto|eapply HC2; eauto|lia].
        + intros k' x Hk Hp Hx. destruct (Hi _ Hp) as [Hq|[[Hq _]|Hq]].
          * apply Hk. eapply (dr_sep _ _ _ _ _ D); eauto.
          * eapply HA; eauto.
          * apply (bound_entry _ _ _ _ _ (dr_entry _ _ _ _ _ D k')) in Hx. lia.
      - rewrite lookup_set_eq. constructor. exact Hu.
      - intros k' Hk. now apply lookup_set_neq.
      - lia.
      - auto.
      - intros x Hx. destruct (Hi _ Hx) as [Hq|[[Hq Hq']|Hq]]; auto; [|right; right; lia].
        right. left. split; auto. congruence. }
    (* a new value is stored *)
    assert (Store : forall h2 v' r Pk, set_entry h2 self k v' = Ok h' -> holds h2 v' r Pk -> Updated t1 t r ->
      length h <= length h2 -> (forall x, x < length h -> ~ Ps k x -> nth_error h2 x = nth_error h x) ->
      (forall x, Pk x -> length h <= x) ->
      exists d' td' Pk, dictrep h' self d' td' (fun k' => if eqb k' k then Pk else Ps k') /\
        Entry (mem k rp) true (Some to) (Some t) (lookup k td') /\
        (forall k', k' <> k -> lookup k' td' = lookup k' td) /\
        length h <= length h' /\
        (forall x, x < length h -> x <> self -> ~ Ps k x -> nth_error h' x = nth_error h x) /\
        (forall x, Pk x -> Ps k x \/ (Qs k x /\ Some v <> Some (VRef x)) \/ length h <= x)).
    { intros h2 v' r Pk Es Hr Hu Hl Hf Hi. unfold set_entry, get_dict in Es.
      assert (Cs : nth_error h2 self = Some (CDict d)).
      { rewrite Hf by (auto; apply (dr_self _ _ _ _ _ D)). apply (dr_cell _ _ _ _ _ D). }
      rewrite Cs in Es. cbn [bind] in Es. apply ok_inj in Es. subst h'.
      exists (set k v' d), (set k r td), Pk. split; [|split; [|split; [|split; [|split]]]].
      - apply (dictrep_upd h); auto.
        + apply upd_same. lia.
        + intros k' x Hk Hx. rewrite upd_other.
          * apply Hf; [eapply bound_entry; [apply (dr_entry _ _ _ _ _ D k')|auto]|].
            intros Hx'. apply Hk. eapply (dr_sep _ _ _ _ _ D); eauto.
          * intros ->. eapply (dr_self _ _ _ _ _ D); eauto.
        + eapply frame; [exact Hr|]. intros x Hx. apply upd_other. apply Hi in Hx. lia.
        + intros Hs. apply Hi in Hs. lia.
        + intros k' x Hk Hp Hx. apply Hi in Hp. apply (bound_entry _ _ _ _ _ (dr_entry _ _ _ _ _ D k')) in Hx. lia.
      - rewrite lookup_set_eq. constructor. exact Hu.
      - intros k' Hk. now apply lookup_set_neq.
      - rewrite upd_length. lia.
      - intros x Hx Hn Hp. rewrite upd_other by auto. auto.
      - auto. }
    destruct o as [s|a].
    + destruct (convert s v) as [v'|] eqn:Ecv; [|discriminate]. cbn [bind] in E.
      destruct (convert_spec _ _ _ _ _ _ Hv1 Ecv) as (r & -> & Hr).
      assert (t1 = TS s) as Et1 by (inversion H1; reflexivity).
      eapply (Store h1); [exact E|apply holds_scalar| | | |].
      * rewrite Et1. now constructor.
      * lia.
      * auto.
      * cbn. tauto.
    + destruct (nth_error h1 a) as [[l|l|dd|cls ctx s]|] eqn:Ea; [| | | |discriminate].
      1-3: (destruct (value_spec rec h1 a t1 P1 v t (Qs k) h') as (r & P' & V1 & V2 & V3 & V4 & V5);
        [exact R|exact H1|exact Hv1|intros x Hx; apply HB; auto|rewrite Ea; exact E|];
        eapply Place; eauto).
      assert (Et1 : t1 = TTag cls s) by (inversion H1; subst; congruence).
      destruct v as [[s'| | | |]|b].
      2-5: (apply ok_inj in E; subst h'; eapply (Place t1 P1); auto; rewrite Et1; inversion Hv1; subst; constructor; congruence).
      * cbn [alloc] in E. eapply (Store (h1 ++ [CTag cls self s'])); [exact E|eapply holds_tag; apply alloc_new| | | |].
        -- rewrite Et1. inversion Hv1; subst. constructor.
        -- rewrite app1_length. lia.
        -- intros x Hx Hn. rewrite alloc_old by lia. auto.
        -- cbn. intros x ->. lia.
      * destruct (nth_error h1 b) as [[l|l|dd|cls' ctx' s']|] eqn:Eb.
        1-3,5: (apply ok_inj in E; subst h'; eapply (Place t1 P1); auto; rewrite Et1; inversion Hv1; subst; constructor; congruence).
        cbn [alloc] in E. eapply (Store (h1 ++ [CTag cls' self s'])); [exact E|eapply holds_tag; apply alloc_new| | | |].
        -- rewrite Et1. assert (t = TTag cls' s') as -> by (inversion Hv1; subst; congruence). constructor.
        -- rewrite app1_length. lia.
        -- intros x Hx Hn. rewrite alloc_old by lia. auto.
        -- cbn. intros x ->. lia.
  - rewrite (entry_inv_none _ _ _ _ _ (dr_entry _ _ _ _ _ D k) Eo).
    destruct (copy_spec h self _ _ _ Hv) as (P' & K1 & K2 & K3 & K4).
    destruct (copy_val h self v) as [v' h2]. cbn [fst snd] in *.
    unfold set_entry, get_dict in E. rewrite K4 in E by auto. rewrite (dr_cell _ _ _ _ _ D) in E.
    cbn [bind] in E. apply ok_inj in E. subst h'.
    assert (Hn : forall x, P' x -> x <> self).
    { intros x Hx ->. destruct (K2 _ Hx) as [[Hq _]| ->]; [eapply HC2; eauto|lia]. }
    exists (set k v' d), (set k t td), P'. split; [|split; [|split; [|split; [|split]]]].
    + apply (dictrep_upd h); auto.
      * apply upd_same. lia.
      * intros k' x Hk Hx. assert (x < length h) by (eapply bound_entry; [apply (dr_entry _ _ _ _ _ D k')|auto]).
        rewrite upd_other; [auto|]. intros ->. eapply (dr_self _ _ _ _ _ D); eauto.
      * eapply frame; [exact K1|]. intros x Hx. apply upd_other. auto.
      * intros Hs. exact (Hn _ Hs eq_refl).
      * intros k' x Hk Hp Hx. destruct (K2 _ Hp) as [[Hq _]| ->]; [eapply HA; eauto|].
        apply (bound_entry _ _ _ _ _ (dr_entry _ _ _ _ _ D k')) in Hx. lia.
    + rewrite lookup_set_eq. constructor.
    + intros k' Hk. now apply lookup_set_neq.
    + rewrite upd_length. lia.
    + intros x Hx Hs _. rewrite upd_other by auto. auto.
    + intros x Hx. destruct (K2 _ Hx) as [[Hq Hq']| ->]; auto. right. left. split; auto. congruence.
Qed.

(** All keys *)
Lemma keys_spec rec rp over self ch : rec_ok rec -> ch <> self ->
  forall ks h h' d td Ps c tc Qs, NoDup ks ->
  dictrep h self d td Ps -> dictrep h ch c tc Qs ->
  (forall k k' x, In k ks -> Ps k' x -> Qs k x -> False) -> (forall k k' x, In k ks -> Ps k x -> Qs k' x -> False) ->
  (forall k, In k ks -> ~ Ps k ch) -> (forall k', ~ Qs k' self) ->
  update_keys rec rp over self ch ks h = Ok h' ->
  exists d' td' Ps', dictrep h' self d' td' Ps' /\
    (forall k, In k ks -> Entry (mem k rp) over (lookup k td) (lookup k tc) (lookup k td')) /\
    (forall k, ~ In k ks -> lookup k td' = lookup k td) /\
    length h <= length h' /\
    (forall x, x < length h -> x <> self -> (forall k, In k ks -> ~ Ps k x) -> nth_error h' x = nth_error h x) /\
    (forall k x, Ps' k x -> Ps k x \/ (Qs k x /\ lookup k c <> Some (VRef x)) \/ length h <= x).
Proof.
  intros R Hne. induction ks as [|k ks IH]; intros h h' d td Ps c tc Qs Nd D C HA HB HC1 HC2 E.
  - cbn in E. apply ok_inj in E. subst h'. exists d, td, Ps. split; [exact D|].
    split; [intros k []|]. split; [auto|]. split; [lia|]. split; auto.
  - cbn [Context.update_keys] in E. inversion_clear Nd as [|? ? Nk Nd'].
    destruct (update_key rec rp over self ch h k) as [h1|] eqn:E1; [|discriminate]. cbn [bind] in E.
    assert (In k (k :: ks)) as Ik by (left; auto).
    destruct (key_spec rec rp over self ch h k h1 d td Ps c tc Qs) as (d1 & td1 & Pk & S1 & S2 & S3 & S4 & S5 & S6);
      auto; eauto.
    assert (C' : dictrep h1 ch c tc Qs).
    { destruct C as [C1 C2 C3 C4 C5 C6]. constructor; auto.
      - rewrite S5; [exact C1|eapply nth_lt; eauto|auto|auto].
      - intros k'. eapply frame_entry; [apply C4|]. intros x Hx.
        apply S5; [eapply bound_entry; [apply C4|exact Hx]| |].
        + intros ->. eapply HC2; eauto.
        + intros Hp. eapply HB; eauto. }
    assert (Neq : forall k2, In k2 ks -> k2 <> k) by (intros k2 H2 ->; auto).
    destruct (IH h1 h' d1 td1 (fun k' => if eqb k' k then Pk else Ps k') c tc Qs) as (d2 & td2 & Ps2 & T1 & T2 & T3 & T4 & T5 & T6); auto.
    + intros k2 k' x H2 Hp Hq. destruct (eqb_spec k' k) as [->|N]; [|eapply (HA k2); eauto; right; auto].
      destruct (S6 x Hp) as [Hp'|[[Hq' _]|Hl]].
      * eapply (HA k2); eauto. right; auto.
      * apply (Neq k2 H2). eapply (dr_sep _ _ _ _ _ C); eauto.
      * apply (bound_entry _ _ _ _ _ (dr_entry _ _ _ _ _ C k2)) in Hq. lia.
    + intros k2 k' x H2 Hp Hq. destruct (eqb_spec k2 k) as [->|N]; [tauto|]. eapply (HB k2); eauto. right; auto.
    + intros k2 H2. destruct (eqb_spec k2 k) as [->|N]; [tauto|]. apply HC1. right; auto.
    + exists d2, td2, Ps2. split; [exact T1|]. split; [|split; [|split; [|split]]].
      * intros k2 [<-|H2].
        -- rewrite T3 by auto. exact S2.
        -- rewrite <- (S3 k2) by auto. auto.
      * intros k2 H2. rewrite T3 by (intros ?; apply H2; right; auto). apply S3. intros ->. apply H2. now left.
      * lia.
      * intros x Hx Hs Hp. rewrite T5; [apply S5; auto|lia|auto|].
        intros k2 H2. destruct (eqb_spec k2 k) as [->|N]; [tauto|]. apply Hp. right; auto.
      * intros k2 x H2. destruct (T6 k2 x H2) as [Hp|[Hq|Hl]]; [|auto|right; right; lia].
        destruct (eqb_spec k2 k) as [->|N]; auto.
Qed.

Definition touched (ks : option (list str)) (k : str) : Prop := match ks with Some l => In k l | None => True end.

Lemma update_spec n : forall rp over self ch ks h h' d c F G,
  holds h (VRef self) (TDict d) F -> holds h (VRef ch) (TDict c) G -> (forall x, F x -> G x -> False) ->
  match ks with Some l => NoDup l | None => True end ->
  match_update n rp over self ch ks h = Ok h' ->
  exists d' F', holds h' (VRef self) (TDict d') F' /\
    (forall k, touched ks k -> Entry (mem k rp) over (lookup k d) (lookup k c) (lookup k d')) /\
    (forall k, ~ touched ks k -> lookup k d' = lookup k d) /\
    length h <= length h' /\
    (forall x, x < length h -> ~ F x -> nth_error h' x = nth_error h x) /\
    (forall x, F' x -> F x \/ (G x /\ x <> ch) \/ length h <= x) /\
    (flat_dict c -> forall x, F' x -> F x \/ length h <= x).
Proof.
  induction n as [|n IH]; intros rp over self ch ks h h' d c F G HF HG HD HN E; [discriminate|].
  cbn [Context.match_update] in E.
  destruct (dict_inv _ _ _ _ HF) as (vd & Ps & D & ->). destruct (dict_inv _ _ _ _ HG) as (vc & Qs & C & ->).
  unfold get_dict in E. rewrite (dr_cell _ _ _ _ _ C) in E. cbn [bind] in E.
  assert (R : rec_ok (fun h a b => match_update n nil true a b None h)).
  { intros h2 a b h3 d2 c2 F2 G2 H2 H3 H4 E2.
    destruct (IH nil true a b None h2 h3 d2 c2 F2 G2 H2 H3 H4 I E2) as (d' & F' & K1 & K2 & K3 & K4 & K5 & K6 & _).
    exists d', F'. split; auto. split; [intros k; apply (K2 k I)|]. auto. }
  set (kl := match ks with Some l => l | None => keys vc end) in *.
  assert (Nd : NoDup kl). { subst kl. destruct ks; auto. apply (dr_wf _ _ _ _ _ C). }
  assert (Hne : ch <> self) by (intros ->; eapply HD; left; reflexivity).
  destruct (keys_spec _ rp over self ch R Hne kl h h' vd d Ps vc c Qs) as (d' & td' & Ps' & K1 & K2 & K3 & K4 & K5 & K6); auto.
  - intros k k' x _ Hp Hq. eapply HD; right; eauto.
  - intros k k' x _ Hp Hq. eapply HD; right; eauto.
  - intros k _ Hp. eapply HD; [right; eauto|left; reflexivity].
  - intros k Hq. eapply HD; [left; reflexivity|right; eauto].
  - exists td', (fun x => x = self \/ exists k, Ps' k x). split; [now apply dict_holds with (d := d')|].
    split; [|split; [|split; [|split; [|split]]]].
    + intros k Hk. destruct (in_dec (list_eq_dec N.eq_dec) k kl) as [Hin|Hni]; [now apply K2|].
      subst kl. destruct ks as [l|]; [tauto|].
      assert (lookup k vc = None) as Hc by now apply lookup_None.
      rewrite (entry_inv_none _ _ _ _ _ (dr_entry _ _ _ _ _ C k) Hc). rewrite K3 by auto. constructor.
    + intros k Hk. apply K3. subst kl. destruct ks; cbn in *; tauto.
    + exact K4.
    + intros x Hx Hn. apply K5; [auto|tauto|]. intros k _ Hp. apply Hn. right; eauto.
    + intros x [->|[k Hk]]; [auto|]. destruct (K6 k x Hk) as [Hp|[[Hq _]|Hl]]; [left; right; eauto| |auto].
      right. left. split; [right; eauto|]. intros ->. eapply (dr_self _ _ _ _ _ C); eauto.
    + intros Hfl x [->|[k Hk]]; [auto|]. destruct (K6 k x Hk) as [Hp|[[Hq Hq']|Hl]]; [left; right; eauto| |auto].
      exfalso. pose proof (dr_entry _ _ _ _ _ C k) as He. inversion He as [E0 E0' HQ|v t P Hh E0 E0' HQ].
      * rewrite <- HQ in Hq. exact Hq.
      * apply Hq'. rewrite <- E0. f_equal. subst P. eapply flat_foot; [exact Hh|eapply Hfl; eauto|exact Hq].
Qed.

(** * Determinism of the specification *)
Scheme Updated_ind2 := Minimality for Context.Updated Sort Prop
with Entry_ind2 := Minimality for Context.Entry Sort Prop.
Combined Scheme Updated_mutind from Updated_ind2, Entry_ind2.

Lemma converted_det o v r r' : Converted o v r -> Converted o v r' -> r = r'.
Proof. intros H1 H2. inversion H1; subst; inversion H2; subst; try reflexivity; try congruence; exfalso;
    match goal with
    | H : forall x, _ <> _ |- _ => exact (H _ eq_refl)
    | H : ?x = lit "true", H' : ?x = lit "false" |- _ => rewrite H in H'; discriminate
    end.
Qed.

Lemma updated_det_all :
  (forall o v r, Updated o v r -> forall r', Updated o v r' -> same r r') /\
  (forall rp w o v r, Entry rp w o v r -> forall r', Entry rp w o v r' -> same_opt r r').
Proof.
  apply Updated_mutind.
  - intros l v items E r' H. inversion H; subst. replace items0 with items by congruence. constructor.
  - intros l v items E r' H. inversion H; subst. assert (map TS items0 = map TS items) as Em by congruence.
    assert (items0 = items) as ->; [|constructor].
    clear - Em. revert items Em. induction items0 as [|x l IH]; intros [|y m] Em; cbn in Em; try discriminate; auto.
    injection Em as -> Em. f_equal. auto.
  - intros d v c r E _ IH r' H. inversion H; subst. replace c0 with c in * by congruence. constructor 2. auto.
  - intros cls s s' r' H. inversion H; subst; [constructor|exfalso; match goal with H : forall _, _ <> _ |- _ => exact (H _ eq_refl) | H : forall _ _, _ <> _ |- _ => exact (H _ _ eq_refl) end].
  - intros cls s cls' s' r' H. inversion H; subst; [constructor|exfalso; match goal with H : forall _, _ <> _ |- _ => exact (H _ eq_refl) | H : forall _ _, _ <> _ |- _ => exact (H _ _ eq_refl) end].
  - intros cls s v H1 H2 r' H. inversion H; subst; [exfalso; exact (H1 _ eq_refl)|exfalso; exact (H2 _ _ eq_refl)|constructor].
  - intros o v r H r' H'. inversion H'; subst. rewrite (converted_det _ _ _ _ H H1). constructor.
  - intros rp w o r' H. inversion H; subst. destruct r'; repeat constructor.
  - intros rp w v r' H. inversion H; subst. repeat constructor.
  - intros rp o v r H IH r' H'. inversion H'; subst. constructor. auto.
  - intros rp o v r' H'. inversion H'; subst. repeat constructor.
Qed.
Lemma entry_det rp w o v r r' : Entry rp w o v r -> Entry rp w o v r' -> same_opt r r'.
Proof. intros H. apply (proj2 updated_det_all rp w o v r H). Qed.

Lemma updated_kind o v r : Updated o v r -> kind_of r = kind_of o.
Proof. intros H. inversion H; subst; auto. match goal with H : Converted _ _ _ |- _ => inversion H; subst; auto end. Qed.

(** * Reset *)
Lemma lookup_filter {V} (f : str -> bool) (d : dict str V) k :
  lookup k (filter (fun kv => f (fst kv)) d) = if f k then lookup k d else None.
Proof.
  induction d as [|[k' v] d IH]; cbn; [destruct (f k); auto|].
  destruct (f k') eqn:E; cbn; destruct (eqb_spec k k') as [->|N]; rewrite ?E, ?IH; auto.
  rewrite E. auto.
Qed.
Lemma keys_filter {V} (f : str -> bool) (d : dict str V) : keys (filter (fun kv => f (fst kv)) d) = filter f (keys d).
Proof. induction d as [|[k v] d IH]; auto. cbn [filter fst keys map]. fold (keys d). destruct (f k); cbn [keys map fst]; [f_equal|]; exact IH. Qed.

Lemma filter_rep h a d td Ps f : dictrep h a d td Ps ->
  dictrep (upd h a (CDict (filter (fun kv => f (fst kv)) d))) a (filter (fun kv => f (fst kv)) d)
    (filter (fun kv => f (fst kv)) td) (fun k x => if f k then Ps k x else False).
Proof.
  intros [D1 D2 D3 D4 D5 D6]. constructor.
  - apply upd_same. eapply nth_lt; eauto.
  - unfold wf. rewrite keys_filter. now apply NoDup_filter.
  - rewrite !keys_filter. congruence.
  - intros k. rewrite !lookup_filter. destruct (f k); [|constructor].
    eapply frame_entry; [apply D4|]. intros x Hx. apply upd_other. intros ->. eapply D5; eauto.
  - intros k. destruct (f k); auto.
  - intros k1 k2 x. destruct (f k1), (f k2); try tauto. apply D6.
Qed.

Variable order : list str -> list str.
Hypothesis order_perm : forall l, Permutation.Permutation (order l) l.
Notation reset := (reset to_int to_float lower order).
Notation after_reset := (after_reset to_int to_float lower).

Lemma reset_spec C x h h' d dp di F G I :
  holds h (VRef (self x)) (TDict d) F -> holds_parent h (parent x) dp G -> holds h (VRef (initial x)) (TDict di) I ->
  apart F G -> apart F I -> apart G I ->
  reset C x h = Ok h' ->
  exists d' F', holds h' (VRef (self x)) (TDict d') F' /\ (forall k, after_reset C d dp di k (lookup k d')) /\
    length h <= length h' /\
    (forall a, a < length h -> ~ F a -> (flat_dict dp \/ ~ G a) -> nth_error h' a = nth_error h a) /\
    (flat_dict dp -> flat_dict di -> forall a, F' a -> F a \/ length h <= a).
Proof.
  intros HF HG HI AFG AFI AGI E. unfold Context.reset in E.
  destruct (dict_inv _ _ _ _ HF) as (vd & Ps & D & ->).
  unfold get_dict at 1 in E. rewrite (dr_cell _ _ _ _ _ D) in E. cbn [bind] in E.
  set (ex := exclude_from_reset C) in *.
  pose proof (filter_rep _ _ _ _ _ (fun k => mem k ex) D) as D1.
  set (h1 := upd h (self x) (CDict (filter (fun kv => mem (fst kv) ex) vd))) in *.
  set (d1 := filter (fun kv : str * tree => mem (fst kv) ex) d) in *.
  set (F1 := fun y => y = self x \/ exists k, (if mem k ex then Ps k y else False)).
  assert (L1 : length h1 = length h) by apply upd_length.
  assert (Hself : self x < length h) by (eapply nth_lt; apply (dr_cell _ _ _ _ _ D)).
  assert (F1i : forall y, F1 y -> y = self x \/ exists k, Ps k y).
  { intros y [->|[k Hk]]; auto. right. exists k. destruct (mem k ex); tauto. }
  assert (Fr1 : forall y, y <> self x -> nth_error h1 y = nth_error h y) by (intros; now apply upd_other).
  assert (H1 : holds h1 (VRef (self x)) (TDict d1) F1) by exact (dict_holds _ _ _ _ _ D1).
  assert (HI1 : holds h1 (VRef (initial x)) (TDict di) I).
  { eapply frame; [exact HI|]. intros y Hy. apply Fr1. intros ->. eapply AFI; [left; reflexivity|eauto]. }
  match type of E with bind ?m _ = _ => destruct m as [h2|] eqn:E2; [|discriminate] end. cbn [bind] in E.
  (* the parent *)
  assert (Mid : exists d2 F2, holds h2 (VRef (self x)) (TDict d2) F2 /\
    (forall k, Entry (mem k (replace C)) true (lookup k d1) (if mem k (do_not_inherit C) then None else lookup k dp) (lookup k d2)) /\
    length h1 <= length h2 /\ (forall y, y < length h1 -> ~ F1 y -> nth_error h2 y = nth_error h1 y) /\
    (forall y, F2 y -> F1 y \/ G y \/ length h1 <= y) /\
    (flat_dict dp -> forall y, F2 y -> F1 y \/ length h1 <= y)).
  { destruct (parent x) as [p|]; cbn [holds_parent] in HG.
    - assert (HG1 : holds h1 (VRef p) (TDict dp) G).
      { eapply frame; [exact HG|]. intros y Hy. apply Fr1. intros ->. eapply AFG; [left; reflexivity|eauto]. }
      destruct (dict_inv _ _ _ _ HG1) as (vp & Qs & Dp & EG).
      unfold get_dict at 1 in E2. rewrite (dr_cell _ _ _ _ _ Dp) in E2. cbn [bind] in E2.
      match type of E2 with Context.match_update _ _ _ _ _ _ _ _ (Some ?ks) _ = _ => set (kl := ks) in * end.
      assert (Nd : NoDup kl).
      { eapply Permutation.Permutation_NoDup; [apply Permutation.Permutation_sym, order_perm|].
        apply NoDup_filter. apply (dr_wf _ _ _ _ _ Dp). }
      assert (A1 : forall y, F1 y -> G y -> False) by (intros y Hy Hy'; eapply AFG; eauto).
      destruct (update_spec 5 (replace C) true (self x) p (Some kl) h1 h2 d1 dp F1 G H1 HG1 A1 Nd E2)
        as (d2 & F2 & U1 & U2 & U3 & U4 & U5 & U6 & U7).
      exists d2, F2. split; [exact U1|]. split; [|split; [|split; [|split]]]; auto.
        * intros k.
          destruct (in_dec (list_eq_dec N.eq_dec) k kl) as [Hk|Hk].
          -- specialize (U2 k Hk).
             apply (Permutation.Permutation_in _ (order_perm _)) in Hk. apply filter_In in Hk. destruct Hk as [_ Hk].
             apply negb_true_iff in Hk. now rewrite Hk.
          -- rewrite (U3 k Hk).
             assert (Hn : (if mem k (do_not_inherit C) then None else lookup k dp) = None).
             { destruct (mem k (do_not_inherit C)) eqn:Em; auto. apply lookup_None. intros Hin. apply Hk.
               eapply Permutation.Permutation_in; [apply Permutation.Permutation_sym, order_perm|].
               apply filter_In. rewrite (dr_keys _ _ _ _ _ Dp). split; auto. now rewrite Em. }
             rewrite Hn. constructor.
        * intros y Hy. destruct (U6 y Hy) as [?|[[? _]|?]]; auto.
    - destruct HG as [-> HG]. apply ok_inj in E2. subst h2. exists d1, F1. split; [exact H1|]. split; [|split; [|split; [|split]]]; auto.
      intros k. cbn [lookup]. destruct (mem k (do_not_inherit C)); constructor. }
  destruct Mid as (d2 & F2 & M1 & M2 & M3 & M4 & M5 & M6).
  assert (NF1 : forall y, I y -> ~ F1 y).
  { intros y Hy Hy'. eapply AFI; eauto. }
  assert (HI2 : holds h2 (VRef (initial x)) (TDict di) I).
  { eapply frame; [exact HI1|]. intros y Hy. apply M4; auto. eapply bound; [exact HI1|exact Hy]. }
  assert (AI : forall y, F2 y -> I y -> False).
  { intros y Hy Hy'. destruct (M5 y Hy) as [H2|[H2|H2]]; [eapply NF1; eauto|eapply AGI; eauto|].
    apply (bound _ _ _ _ _ HI1) in Hy'. lia. }
  destruct (update_spec 5 (replace C) true (self x) (initial x) None h2 h' d2 di F2 I M1 HI2 AI Logic.I E)
    as (d3 & F3 & V1 & V2 & _ & V4 & V5 & V6 & V7).
  exists d3, F3. split; [exact V1|]. split; [|split; [|split]].
  - intros k. exists (lookup k d2). split; [|apply (V2 k Logic.I)].
    specialize (M2 k). subst d1. rewrite (lookup_filter (fun k => mem k ex)) in M2. exact M2.
  - lia.
  - intros a Ha Hn Hg.
    assert (Hs : a <> self x) by (intros ->; apply Hn; now left).
    assert (Hn1 : ~ F1 a) by (intros Hf; apply Hn; auto).
    rewrite V5; [rewrite M4 by (auto; lia); now apply Fr1|lia|].
    intros Hf. destruct Hg as [Hg|Hg].
    + destruct (M6 Hg a Hf); [auto|lia].
    + destruct (M5 a Hf) as [?|[?|?]]; auto. lia.
  - intros Fp Fi a Ha. destruct (V7 Fi a Ha) as [H2|H2]; [|right; lia].
    destruct (M6 Fp a H2) as [H3|H3]; [left; auto|right; lia].
Qed.

Lemma list_inv h a t P l : holds h (VRef a) t P -> nth_error h a = Some (CList l) ->
  exists ts Q, t = TList ts /\ holds_all h l ts Q /\ ~ Q a /\ (forall b, b = a \/ Q b -> P b).
Proof.
  intros H E. remember (VRef a) as v eqn:Ev. destruct H; try congruence; injection Ev as ->; try congruence.
  assert (l0 = l) by congruence. subst l0. eauto 10.
Qed.
Lemma set_inv h a t P l : holds h (VRef a) t P -> nth_error h a = Some (CSet l) ->
  exists m, t = TSet m /\ l = map VS m /\ P a.
Proof.
  intros H E. remember (VRef a) as v eqn:Ev. destruct H; try congruence; injection Ev as ->; try congruence.
  exists l0. split; auto. split; auto. congruence.
Qed.

(** * Histories *)
(** An entry is changed in place *)
Lemma place_rep h h' a d td Ps k o r P' : dictrep h a d td Ps -> lookup k d = Some o ->
  holds h' o r P' -> length h <= length h' ->
  (forall x, x < length h -> ~ Ps k x -> nth_error h' x = nth_error h x) ->
  (forall x, P' x -> Ps k x \/ length h <= x) ->
  dictrep h' a d (set k r td) (fun k' => if eqb k' k then P' else Ps k').
Proof.
  intros D Eo Hr Hl Hf Hi. rewrite <- (set_same _ _ _ Eo) at 1.
  assert (Ls : a < length h) by (eapply nth_lt; apply (dr_cell _ _ _ _ _ D)).
  apply (dictrep_upd h); auto.
  - rewrite (set_same _ _ _ Eo). rewrite Hf by (auto; apply (dr_self _ _ _ _ _ D)). apply (dr_cell _ _ _ _ _ D).
  - intros k' x Hk Hx. apply Hf; [eapply bound_entry; [apply (dr_entry _ _ _ _ _ D k')|auto]|].
    intros Hx'. apply Hk. eapply (dr_sep _ _ _ _ _ D); eauto.
  - intros Hs. destruct (Hi _ Hs) as [Hq|Hq]; [apply (dr_self _ _ _ _ _ D k); auto|lia].
  - intros k' x Hk Hp Hx. destruct (Hi _ Hp) as [Hq|Hq].
    + apply Hk. eapply (dr_sep _ _ _ _ _ D); eauto.
    + apply (bound_entry _ _ _ _ _ (dr_entry _ _ _ _ _ D k')) in Hx. lia.
Qed.

Lemma remove_rep h a d td Ps k : dictrep h a d td Ps ->
  dictrep (upd h a (CDict (remove k d))) a (remove k d) (remove k td) (fun k' => if eqb k' k then (fun _ => False) else Ps k').
Proof.
  intros [D1 D2 D3 D4 D5 D6].
  assert (D2' : wf td) by (unfold wf in *; congruence).
  constructor.
  - apply upd_same. eapply nth_lt; eauto.
  - now apply wf_remove.
  - clear - D3. revert td D3. induction d as [|[k1 v1] d IH]; intros [|[k2 t2] td] E; try discriminate; auto.
    cbn in E. injection E as -> E. cbn. destruct (eqb k k2); cbn; auto. f_equal. now apply IH.
  - intros k'. rewrite !lookup_remove by auto. destruct (eqb_spec k' k) as [->|N].
    + constructor.
    + eapply frame_entry; [apply D4|]. intros x Hx. apply upd_other. intros ->. eapply D5; eauto.
  - intros k'. destruct (eqb k' k); auto.
  - intros k1 k2 x. destruct (eqb k1 k), (eqb k2 k); try tauto. apply D6.
Qed.

Lemma set_scalar_rep h a d td Ps k s : dictrep h a d td Ps ->
  dictrep (upd h a (CDict (set k (VS s) d))) a (set k (VS s) d) (set k (TS s) td)
    (fun k' => if eqb k' k then (fun _ => False) else Ps k').
Proof.
  intros D. assert (Ls : a < length h) by (eapply nth_lt; apply (dr_cell _ _ _ _ _ D)).
  apply (dictrep_upd h); auto.
  - now apply upd_same.
  - intros k' x _ Hx. apply upd_other. intros ->. eapply (dr_self _ _ _ _ _ D); eauto.
  - constructor.
Qed.

(** The entries of [x] are its own: nothing below [n], nor [i] *)
Definition inv (n i : nat) (x : context) (h : list cell) (d : dict str tree) : Prop :=
  exists F, holds h (VRef (self x)) (TDict d) F /\ n <= length h /\ i < length h /\ forall a, F a -> n <= a /\ a <> i.

Lemma inv_step n i x h h' d d' F F' :
  holds h (VRef (self x)) (TDict d) F -> n <= length h -> i < length h -> (forall a, F a -> n <= a /\ a <> i) ->
  holds h' (VRef (self x)) (TDict d') F' -> length h <= length h' ->
  (forall a, a < length h -> ~ F a -> nth_error h' a = nth_error h a) ->
  (forall a, F' a -> F a \/ length h <= a) ->
  inv n i x h' d' /\ (forall a, a < n \/ a = i -> nth_error h' a = nth_error h a).
Proof.
  intros HF Hn Hi HFn HF' Hl Hf Hi'. split.
  - exists F'. split; auto. split; [lia|]. split; [lia|]. intros a Ha.
    destruct (Hi' a Ha) as [H|H]; [auto|]. split; lia.
  - intros a Ha. apply Hf; [destruct Ha; [lia|congruence]|]. intros H. apply HFn in H. destruct Ha; [lia|tauto].
Qed.

Lemma text_update_ok n i x h h' d C w (kv : dict str str) :
  inv n i x h d -> wf kv ->
  match_update 5 (replace C) w (self x) (length h) None (h ++ [CDict (texts kv)]) = Ok h' ->
  exists d', inv n i x h' d' /\ (forall a, a < n \/ a = i -> nth_error h' a = nth_error h a).
Proof.
  intros (F & HF & Hn & Hi & HFn) W E.
  set (h1 := h ++ [CDict (texts kv)]) in *.
  assert (L1 : length h1 = S (length h)) by apply app1_length.
  assert (Hext : forall a, a < length h -> nth_error h1 a = nth_error h a) by (intros; now apply alloc_old).
  assert (HF1 : holds h1 (VRef (self x)) (TDict d) F).
  { eapply frame; [exact HF|]. intros a Ha. apply Hext. exact (bound _ _ _ _ _ HF Ha). }
  pose proof (dict_holds _ _ _ _ _ (texts_rep h1 (length h) kv (alloc_new _ _) W)) as HG.
  assert (A1 : forall y, F y -> (y = length h \/ (exists k : str, False)) -> False).
  { intros y Hy [->|[_ []]]. apply (bound _ _ _ _ _ HF) in Hy. lia. }
  destruct (update_spec 5 (replace C) w (self x) (length h) None h1 h' d (ttexts kv) F _ HF1 HG A1 Logic.I E)
    as (d' & F' & U1 & _ & _ & U4 & U5 & U6 & _).
  destruct (inv_step n i x h1 h' d d' F F' HF1) as [I1 I2]; auto; try lia.
  - intros a Ha. destruct (U6 a Ha) as [H|[[[->|[_ []]] H]|H]]; auto; congruence.
  - exists d'. split; auto. intros a Ha. rewrite I2 by auto. apply Hext. destruct Ha; lia.
Qed.

Lemma op_ok n i C x h h' d dp G di I o :
  inv n i x h d -> holds_parent h (parent x) dp G -> flat_dict dp -> holds h (VRef (initial x)) (TDict di) I -> flat_dict di ->
  apart G I -> (forall a, G a -> a < n) -> (forall a, I a -> a < n \/ a = i) ->
  do_op to_int to_float lower order C x o h = Ok h' ->
  exists d', inv n i x h' d' /\ (forall a, a < n \/ a = i -> nth_error h' a = nth_error h a) /\
    (o = Reset -> forall k, after_reset C d dp di k (lookup k d')).
Proof.
  intros Hinv HG Fp HI Fi AGI Gn In E.
  pose proof Hinv as (F & HF & Hn & Hi & HFn).
  destruct (dict_inv _ _ _ _ HF) as (vd & Ps & D & EF).
  pose proof (dr_cell _ _ _ _ _ D) as Dc.
  assert (Ls : self x < length h) by (eapply nth_lt; eauto).
  (* changes in place of an entry *)
  assert (InPlace : forall k v r P', lookup k vd = Some v -> holds h' v r P' -> length h <= length h' ->
    (forall a, a < length h -> ~ Ps k a -> nth_error h' a = nth_error h a) ->
    (forall a, P' a -> Ps k a \/ length h <= a) ->
    exists d', inv n i x h' d' /\ (forall a, a < n \/ a = i -> nth_error h' a = nth_error h a)).
  { intros k v r P' Ev Hr Hl Hf Hi'.
    pose proof (dict_holds _ _ _ _ _ (place_rep _ _ _ _ _ _ _ _ _ _ D Ev Hr Hl Hf Hi')) as H'.
    exists (set k r d). eapply (inv_step n i x h h' d); try exact HF; try exact H'; auto.
    - intros a Ha Hna. apply Hf; auto. intros Hp. apply Hna. rewrite EF. right; eauto.
    - intros a [->|[k' Hk]]; [left; rewrite EF; auto|]. rewrite EF. destruct (eqb k' k); [|left; right; eauto].
      destruct (Hi' a Hk); [left; right; eauto|auto]. }
  (* changes of the dictionary *)
  assert (AtSelf : forall h1 c' td' Ps', h' = upd h1 (self x) c' -> dictrep h' (self x) (match c' with CDict d => d | _ => nil end) td' Ps' ->
    length h <= length h1 -> (forall a, a < length h -> nth_error h1 a = nth_error h a) ->
    (forall k a, Ps' k a -> Ps k a \/ length h <= a) ->
    exists d', inv n i x h' d' /\ (forall a, a < n \/ a = i -> nth_error h' a = nth_error h a)).
  { intros h1 c' td' Ps' Eh D' Hl Hf Hi'. pose proof (dict_holds _ _ _ _ _ D') as H'.
    exists td'. eapply (inv_step n i x h h' d); try exact HF; try exact H'; auto.
    - rewrite Eh, upd_length. exact Hl.
    - intros a Ha Hna. rewrite Eh, upd_other; [auto|]. intros ->. apply Hna. rewrite EF. auto.
    - intros a [->|[k' Hk]]; [left; rewrite EF; auto|]. rewrite EF. destruct (Hi' k' a Hk); [left; right; eauto|auto]. }
  assert (Fin : o <> Reset -> (exists d', inv n i x h' d' /\ (forall a, a < n \/ a = i -> nth_error h' a = nth_error h a)) ->
    exists d', inv n i x h' d' /\ (forall a, a < n \/ a = i -> nth_error h' a = nth_error h a) /\
    (o = Reset -> forall k, after_reset C d dp di k (lookup k d'))).
  { intros Ho (d' & A & B). exists d'. split; auto. split; auto. tauto. }
  assert (EC : forall k a c, entry_cell h x k = Some (a, c) -> lookup k vd = Some (VRef a) /\ nth_error h a = Some c /\
      exists t, holds h (VRef a) t (Ps k)).
  { intros k a c Ee. unfold entry_cell in Ee. rewrite Dc in Ee. destruct (lookup k vd) as [[|b]|] eqn:Eb; try discriminate.
    destruct (nth_error h b) as [c'|] eqn:En; [|discriminate]. injection Ee as <- <-. split; auto. split; auto.
    destruct (entry_inv_some _ _ _ _ _ _ (dr_entry _ _ _ _ _ D k) Eb) as (t & _ & Ht). eauto. }
  destruct o as [k s|k l|k|k s|k s|k k' s|s w|s w|]; cbn [do_op] in E.
  - apply Fin; [discriminate|]. unfold set_entry, get_dict in E. rewrite Dc in E. apply ok_inj in E. subst h'.
    eapply (AtSelf h (CDict (set k (VS s) vd))); [reflexivity|apply set_scalar_rep; exact D|lia|auto|].
    intros k' a. cbv beta. destruct (eqb k' k); tauto.
  - apply Fin; [discriminate|]. set (h1 := h ++ [CList (map VS l)]) in *. unfold set_entry, get_dict in E.
    assert (Hext : forall a, a < length h -> nth_error h1 a = nth_error h a) by (intros; now apply alloc_old).
    assert (L1 : length h1 = S (length h)) by apply app1_length.
    rewrite Hext, Dc in E by auto. apply ok_inj in E. subst h'.
    destruct (all_scalars (upd h1 (self x) (CDict (set k (VRef (length h)) vd))) l) as (P & P1 & P2).
    eapply (AtSelf h1 (CDict (set k (VRef (length h)) vd)) (set k (TList (map TS l)) d)
      (fun k' => if eqb k' k then (fun a => a = length h \/ P a) else Ps k')); [reflexivity| |lia|auto|].
    + apply (dictrep_upd h); auto.
      * apply upd_same. lia.
      * intros k' a _ Ha. rewrite upd_other; [|intros ->; eapply (dr_self _ _ _ _ _ D); eauto].
        apply Hext. eapply bound_entry; [apply (dr_entry _ _ _ _ _ D k')|auto].
      * eapply holds_list; [|exact P1|apply P2]. rewrite upd_other by lia. apply alloc_new.
      * intros [Hs|Hs]; [lia|now apply P2 in Hs].
      * intros k' a _ [->|Hs] Ha; [|now apply P2 in Hs].
        apply (bound_entry _ _ _ _ _ (dr_entry _ _ _ _ _ D k')) in Ha. lia.
    + intros k' a. cbv beta. destruct (eqb k' k); auto. intros [->|Hs]; [auto|now apply P2 in Hs].
  - apply Fin; [discriminate|]. unfold get_dict in E. rewrite Dc in E. apply ok_inj in E. subst h'.
    eapply (AtSelf h (CDict (remove k vd))); [reflexivity|apply remove_rep; exact D|lia|auto|].
    intros k' a. cbv beta. destruct (eqb k' k); tauto.
  - apply Fin; [discriminate|]. destruct (entry_cell h x k) as [[a c]|] eqn:Ee; [|discriminate].
    destruct c as [l| | |]; try discriminate. apply ok_inj in E. subst h'.
    destruct (EC _ _ _ Ee) as (E1 & E2 & t & Ht). 
    destruct (list_inv _ _ _ _ _ Ht E2) as (ts & P & -> & H1 & Pa & Pk).
    destruct (all_app _ _ _ _ H1 _ _ _ (all_cons h (VS s) (TS s) _ nil nil _ (holds_scalar h s) (all_nil h))) as (R & R1 & R2).
    assert (Ra : ~ R a). { intros Hr. destruct (R2 a Hr) as [?|[[]|[]]]. tauto. }
    eapply (InPlace k (VRef a) (TList (ts ++ [TS s])) (fun b => b = a \/ R b)); [exact E1| | | |].
    + eapply holds_list; [apply upd_same; eapply nth_lt; eauto| |exact Ra].
      eapply frame_items; [exact R1|]. intros b Hb. apply upd_other. intros ->; tauto.
    + rewrite upd_length. lia.
    + intros b _ Hb. apply upd_other. intros ->. apply Hb, Pk. auto.
    + intros b [->|Hb]; left; apply Pk; auto. destruct (R2 b Hb) as [?|[[]|[]]]. auto.
  - apply Fin; [discriminate|]. destruct (entry_cell h x k) as [[a c]|] eqn:Ee; [|discriminate].
    destruct c as [|l| |]; try discriminate. apply ok_inj in E. subst h'.
    destruct (EC _ _ _ Ee) as (E1 & E2 & t & Ht). 
    destruct (set_inv _ _ _ _ _ Ht E2) as (l0 & -> & -> & Pk).
    eapply (InPlace k (VRef a) (TSet (union l0 [s])) (fun b => b = a)); [exact E1| | | |].
    + apply holds_set. change [VS s] with (map VS [s]). rewrite add_items_union. apply upd_same. eapply nth_lt; eauto.
    + rewrite upd_length. lia.
    + intros b _ Hb. apply upd_other. intros ->. auto.
    + intros b ->. auto.
  - apply Fin; [discriminate|]. destruct (entry_cell h x k) as [[a c]|] eqn:Ee; [|discriminate].
    destruct c as [| |dd|]; try discriminate. apply ok_inj in E. subst h'.
    destruct (EC _ _ _ Ee) as (E1 & E2 & t & Ht).
    destruct t as [ | | |td2| ]; try (inversion Ht; subst; congruence).
    destruct (dict_inv _ _ _ _ Ht) as (dd' & Qs & D2 & EP).
    assert (dd' = dd) by (pose proof (dr_cell _ _ _ _ _ D2); congruence). subst dd'.
    pose proof (dict_holds _ _ _ _ _ (set_scalar_rep _ _ _ _ _ k' s D2)) as H2.
    eapply (InPlace k (VRef a)); [exact E1|exact H2| | |].
    + rewrite upd_length. lia.
    + intros b _ Hb. apply upd_other. intros ->. apply Hb. rewrite EP. auto.
    + intros b [->|[k2 Hb]]; left; rewrite EP; auto. destruct (eqb k2 k'); [tauto|eauto].
  - apply Fin; [discriminate|]. unfold match_update_str, alloc in E.
    eapply text_update_ok; [exact Hinv| |exact E]. apply str_to_dict_wf.
  - apply Fin; [discriminate|]. unfold load, alloc in E.
    assert (W : wf (snd (load_from_string s))).
    { unfold load_from_string. destruct (match_header s) as [[? ?]|]; apply str_to_dict_wf. }
    destruct (load_from_string s) as [rest kv]. cbn [snd] in W.
    match type of E with bind (bind ?m _) _ = _ => destruct m as [h2|] eqn:E2; [|discriminate] end.
    cbn [bind] in E. apply ok_inj in E. cbn [snd] in E. subst h2.
    eapply text_update_ok; [exact Hinv|exact W|exact E2].
  - assert (AFG : apart F G). { intros a Ha Hg. apply HFn in Ha. apply Gn in Hg. lia. }
    assert (AFI : apart F I). { intros a Ha Hg. apply HFn in Ha. destruct (In a Hg); [lia|tauto]. }
    destruct (reset_spec C x h h' d dp di F G I HF HG HI AFG AFI AGI E) as (d' & F' & R1 & R2 & R3 & R4 & R5).
    exists d'. destruct (inv_step n i x h h' d d' F F' HF) as [I1 I2]; auto.
Qed.

Lemma holds_parent_frame h h' p dp G : holds_parent h p dp G -> (forall a, G a -> nth_error h' a = nth_error h a) ->
  holds_parent h' p dp G.
Proof. destruct p; cbn; auto. intros H. now apply frame. Qed.

Lemma run_ok n i C x dp G di I ops : forall h h' d,
  inv n i x h d -> holds_parent h (parent x) dp G -> flat_dict dp -> holds h (VRef (initial x)) (TDict di) I -> flat_dict di ->
  apart G I -> (forall a, G a -> a < n) -> (forall a, I a -> a < n \/ a = i) ->
  run to_int to_float lower order C x ops h = Ok h' ->
  exists d', inv n i x h' d' /\ (forall a, a < n \/ a = i -> nth_error h' a = nth_error h a).
Proof.
  induction ops as [|o ops IH]; intros h h' d Hinv HG Fp HI Fi AGI Gn In E.
  - apply ok_inj in E. subst h'. eauto.
  - cbn [run] in E. destruct (do_op to_int to_float lower order C x o h) as [h1|] eqn:E1; [|discriminate]. cbn [bind] in E.
    destruct (op_ok n i C x h h1 d dp G di I o) as (d1 & J1 & J2 & _); auto.
    assert (HG1 : holds_parent h1 (parent x) dp G) by (eapply holds_parent_frame; [exact HG|]; auto).
    assert (HI1 : holds h1 (VRef (initial x)) (TDict di) I) by (eapply frame; [exact HI|]; auto).
    destruct (IH h1 h' d1 J1 HG1 Fp HI1 Fi AGI Gn In E) as (d2 & K1 & K2).
    exists d2. split; auto. intros a Ha. rewrite K2 by auto. auto.
Qed.
End Update.
