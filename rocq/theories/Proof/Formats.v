From Coq Require Import List Bool Arith Lia NArith.
From Verif.Base Require Import Str StrFacts ListFacts Dict DictFacts Result.
From Verif.Model Require Import ListUtils Attributes StringUtils Formats.
From Verif.Spec Require Import Attributes Formats.
From Verif.Proof Require Import ListUtils Attributes.
From Verif.Props Require Import Attributes.
Import ListNotations.

Lemma set_length {V} (k : str) (v : V) d : length (set k v d) = if has k d then length d else S (length d).
Proof.
  unfold has. induction d as [|[k0 v0] d IH]; [reflexivity|]. cbn [set lookup].
  destruct (eqb_spec k k0); [reflexivity|]. cbn [length]. rewrite IH. destruct (lookup k d); reflexivity.
Qed.
Definition gather {X} (g : X -> option (str * aval)) (l : list X) (acc : attrs) : attrs :=
  fold_left (fun acc x => match g x with Some (k, v) => set k v acc | None => acc end) l acc.
Lemma gather_cons {X} (g : X -> option (str * aval)) x l acc :
  gather g (x :: l) acc = gather g l (match g x with Some (k, v) => set k v acc | None => acc end).
Proof. reflexivity. Qed.
Lemma gather_le {X} (g : X -> option (str * aval)) l : forall acc, length (gather g l acc) <= length acc + length l.
Proof.
  induction l as [|x l IH]; intros acc; [cbn; lia|]. rewrite gather_cons.
  destruct (g x) as [[k v]|].
  - etransitivity; [apply IH|]. rewrite set_length. destruct (has k acc); cbn [length]; lia.
  - etransitivity; [apply IH|]. cbn [length]. lia.
Qed.
Lemma gather_full {X} (g : X -> option (str * aval)) l : forall acc,
  length (gather g l acc) = length acc + length l ->
  exists r, gather g l acc = acc ++ r /\ Forall2 (fun x e => g x = Some e) l r.
Proof.
  induction l as [|x l IH]; intros acc E.
  - exists []. rewrite app_nil_r. split; [reflexivity|constructor].
  - rewrite gather_cons in *. cbn [length] in E.
    destruct (g x) as [[k v]|] eqn:Eg.
    + pose proof (gather_le g l (set k v acc)) as Hle. rewrite set_length in Hle.
      destruct (has k acc) eqn:Eh; [lia|].
      destruct (IH (set k v acc)) as (r & Er & HF). { rewrite E, set_length, Eh. lia. }
      exists ((k, v) :: r). split; [|constructor; assumption].
      rewrite Er, set_new by exact Eh. rewrite <- app_assoc. reflexivity.
    + pose proof (gather_le g l acc). lia.
Qed.
Lemma filter_length_le {X} (f : X -> bool) l : length (filter f l) <= length l.
Proof. induction l as [|x l IH]; cbn [filter length]; [lia|]. destruct (f x); cbn [length]; lia. Qed.
Lemma filter_full {X} (f : X -> bool) l : length (filter f l) = length l -> filter f l = l.
Proof.
  induction l as [|x l IH]; [reflexivity|]. cbn [filter]. pose proof (filter_length_le f l).
  destruct (f x); cbn [length]; intros E; [f_equal; apply IH; lia|lia].
Qed.
Lemma strip_attr_inv k p : strip_attr k = p -> k = p \/ exists u, known_target u /\ k = for_target p u.
Proof.
  intros E. destruct (plain_dec k) as [Hp|(q & u & Hu & ->)].
  - left. rewrite strip_attr_plain in E; assumption.
  - right. rewrite strip_attr_for_target in E by exact Hu. subst. eauto.
Qed.

Lemma uv_length {A} `{EqDec A} (l : list A) : forall seen, length (unique_everseen (fun x => x) seen l) <= length l.
Proof.
  induction l as [|x l IH]; intros seen; cbn [unique_everseen length]; [lia|].
  pose proof (IH seen). pose proof (IH (x :: seen)). destruct (mem x seen); cbn [length]; lia.
Qed.
Lemma uv_full {A} `{EqDec A} (l : list A) : forall seen,
  length (unique_everseen (fun x => x) seen l) = length l -> unique_everseen (fun x => x) seen l = l.
Proof.
  induction l as [|x l IH]; intros seen; cbn [unique_everseen length]; [reflexivity|].
  pose proof (uv_length l seen). destruct (mem x seen); cbn [length]; intros E; [lia|].
  f_equal. apply IH. lia.
Qed.
Lemma Forall2_keys {X} (g : X -> option (str * aval)) (l : list X) (r : attrs) :
  Forall2 (fun x e => g x = Some e) l r -> map g l = map Some r.
Proof. induction 1; cbn; congruence. Qed.
Definition stripped (d : attrs) (key : str) : option (str * aval) :=
  match lookup key d with Some v => Some (strip_attr key, v) | None => None end.
Lemma strip_gather d ks acc :
  fold_left (fun acc key => match lookup key d with Some v => set (strip_attr key) v acc | None => acc end) ks acc
  = gather (stripped d) ks acc.
Proof.
  revert acc. induction ks as [|k ks IH]; intros acc; [reflexivity|]. rewrite gather_cons, <- IH. cbn [fold_left].
  unfold stripped. destruct (lookup k d); reflexivity.
Qed.
Lemma Forall2_trans_map {X} (P : X -> str * aval -> Prop) (Q : str -> str * aval -> Prop) (R : X -> str * aval -> Prop)
  (l : list X) (m f : attrs) :
  (forall x e e', P x e -> In e m -> Q (fst e) e' -> R x e') -> Forall2 P l m -> Forall2 Q (keys m) f -> Forall2 R l f.
Proof.
  intros Hc H1. revert f. induction H1 as [|x e l m Hp H1 IH]; intros f H2.
  - inversion H2. constructor.
  - inversion H2 as [|k e' ks f' Hq H2']; subst. constructor.
    + apply (Hc x e e'); [exact Hp|left; reflexivity|exact Hq].
    + apply IH; [|exact H2']. intros x' a b Ha Hi. apply Hc; [exact Ha|right; exact Hi].
Qed.

(** If all requests are answered, each answer is for its request. *)
Lemma filter_exact d r t f : wf d -> bare_target t ->
  filter_attrs d (Some r) (Some t) true true = Ok f -> length f = length r ->
  Forall2 (answers d (Some t)) r f.
Proof.
  intros Hw Hb E Hlen. unfold filter_attrs in E.
  rewrite (norm_target_bare t Hb) in E. cbv beta iota zeta in E.
  set (rq := filter _ (uniq r)) in E.
  change (fold_left _ rq []) with (collect d (Some t) rq []) in E.
  change (collect d (Some t) rq []) with (gather (fun a => find_item d a (Some t)) rq []) in E.
  set (out := gather _ rq []) in E.
  assert (Hwo : wf out) by (apply (collect_wf d (Some t) rq []); constructor).
  unfold strip_attrs, copy in E. destruct (has (lit "self") out); [discriminate|]. cbn [bind] in E.
  rewrite strip_gather in E. set (ks := filter _ (keys out)) in E.
  apply Ok_inj in E.
  assert (L1 : length rq <= length (uniq r)) by apply filter_length_le.
  assert (L2 : length (uniq r) <= length r) by apply uv_length.
  assert (L3 : length out <= length rq) by apply (gather_le _ rq []).
  assert (L4 : length ks <= length out).
  { etransitivity; [apply filter_length_le|]. unfold keys. rewrite map_length. lia. }
  assert (L5 : length f <= length ks) by (rewrite <- E; apply (gather_le _ ks [])).
  assert (E1 : uniq r = r) by (apply uv_full; change (unique_everseen (fun x => x) [] r) with (uniq r); lia).
  assert (E2 : rq = r) by (rewrite <- E1; apply filter_full; fold rq; lia).
  destruct (gather_full (fun a => find_item d a (Some t)) rq []) as (m & Em & HF1).
  { fold out. cbn [length]. lia. }
  fold out in Em. cbn [app] in Em.
  assert (E3 : ks = keys out).
  { unfold ks. apply filter_full. fold ks. unfold keys. rewrite map_length. lia. }
  destruct (gather_full (stripped out) ks []) as (f' & Ef & HF2).
  { rewrite E. cbn [length]. lia. }
  rewrite E in Ef. cbn [app] in Ef. subst f'. rewrite E3, Em in HF2. rewrite E2 in HF1.
  revert HF1 HF2. apply Forall2_trans_map.
  intros a [k v] [p w] Hf Hin Hs. cbn [fst] in Hs. unfold stripped in Hs.
  rewrite Em in Hwo. rewrite (In_lookup k v m Hwo Hin) in Hs. injection Hs as <- <-.
  apply find_item_sound in Hf as [H1 H2]; [|exact Hw]. rewrite (norm_target_bare t Hb) in H2.
  exists k. cbn [fst snd]. split; [exact H1|]. split; [exact H2|]. apply strip_attr_inv. reflexivity.
Qed.

Lemma app_long {A} (a b c d : list A) : a ++ b = c ++ d -> length c <= length a -> exists u, a = c ++ u /\ d = u ++ b.
Proof.
  revert a. induction c as [|x c IH]; intros a E Hl; [exists a; auto|].
  destruct a as [|y a]; [cbn in Hl; lia|]. cbn [app] in E. injection E as -> E.
  destruct (IH a E) as (u & -> & ->); [cbn in Hl; lia|]. exists u. auto.
Qed.
(** The first end of a verbatim text *)
Lemma first_end a e c post : ~ In a e -> ~ contains c (a :: e) = true -> first_before (a :: e) c (c ++ (a :: e) ++ post).
Proof.
  intros Ha Hc. exists post. split; [reflexivity|]. intros b' post' E.
  destruct (le_lt_dec (length c) (length b')) as [|Hlt]; [assumption|exfalso].
  destruct (app_long c ((a :: e) ++ post) b' ((a :: e) ++ post') E) as (u & Ec & Eu); [lia|].
  subst c. destruct u as [|x u]; [rewrite app_nil_r in Hlt; lia|].
  cbn [app] in Eu. injection Eu as <- Eu.
  destruct (le_lt_dec (length e) (length u)) as [Hle|Hgt].
  - destruct (app_long u (a :: e ++ post) e post' (eq_sym Eu)) as (w & -> & _); [exact Hle|].
    apply Hc, contains_iff. exists b', w. reflexivity.
  - destruct (app_long e post' u (a :: e ++ post) Eu) as (w & -> & Ew); [lia|].
    destruct w as [|y w]; [rewrite app_nil_r in Hgt; lia|].
    injection Ew as -> _. apply Ha, in_or_app. right. left. reflexivity.
Qed.

Lemma set_all_lookup l : forall e e', wf l -> set_all e l = Ok e' ->
  (forall k, lookup k e' = match lookup k l with Some v => Some v | None => lookup k e end) /\
  (forall k v, In (k, v) l -> exists x, v = VStr x).
Proof.
  induction l as [|[k0 v0] l IH]; intros e e' Hw E; cbn [set_all] in E.
  - injection E as <-. split; [reflexivity|intros ? ? []].
  - destruct v0 as [x|p|o]; try discriminate. apply NoDup_cons_iff in Hw as [Hni Hw].
    destruct (IH _ _ Hw E) as [H1 H2]. split.
    + intros k. rewrite H1, lookup_set. cbn [lookup]. destruct (eqb_spec k k0) as [->|]; [|reflexivity].
      destruct (lookup k0 l) eqn:El; [|reflexivity]. apply lookup_In in El.
      exfalso. apply Hni. exact (in_map fst l _ El).
    + intros k v [[= <- <-]|Hi]; [eauto|exact (H2 k v Hi)].
Qed.
Lemma set_all_ok l : forall e, (forall k v, In (k, v) l -> exists x, v = VStr x) -> exists e', set_all e l = Ok e'.
Proof.
  induction l as [|[k v] l IH]; intros e H; cbn [set_all]; [eauto|].
  destruct (H k v (or_introl eq_refl)) as [x ->]. apply IH. intros k' v' Hi. apply (H k' v'). right. exact Hi.
Qed.
Lemma expected_full d t ks : length (expected d t ks) = length ks <-> forall k, In k ks -> pick d t k <> None.
Proof.
  assert (Hle : forall ks, length (expected d t ks) <= length ks).
  { clear ks. induction ks as [|k ks IH]; [reflexivity|]. unfold expected. cbn [flat_map]. rewrite app_length.
    fold (expected d t ks). destruct (pick d t k); cbn [length]; lia. }
  induction ks as [|k ks IH]; [split; [intros _ ? []|reflexivity]|].
  unfold expected. cbn [flat_map]. rewrite app_length. fold (expected d t ks). specialize (Hle ks).
  destruct (pick d t k) eqn:Ep; cbn [length].
  - split.
    + intros E k' [<-|Hi]; [congruence|]. apply IH; [lia|exact Hi].
    + intros H. assert (length (expected d t ks) = length ks); [|lia].
      apply IH. intros k' Hi. apply H. right. exact Hi.
  - split; [lia|]. intros H. exfalso. apply (H k); [left; reflexivity|exact Ep].
Qed.

Definition good_target (t : option str) : Prop := forall u, t = Some u -> known_target u.
Lemma named_filter tb d t n l : named tb -> wf d -> good_target t -> lookup n tb = Some l ->
  exists f, filter_attrs d (Some l) t true true = Ok f /\ wf f /\
            (forall k, lookup k f = if mem k (names tb n) then pick d t k else None) /\
            (length f = length l <-> forall k, In k (names tb n) -> pick d t k <> None).
Proof.
  intros Hn Hw Ht El. destruct (Hn n l El) as (E & Hp & Hs & Hd).
  assert (Ef : filter_attrs d (Some l) t true true = Ok (expected d t (names tb n))).
  { rewrite E at 1. rewrite C02_filter_by_names by assumption.
    f_equal. f_equal. unfold uniq, uniq_by. apply uv_id; [rewrite map_id; exact Hd|intros ? _ []]. }
  exists (expected d t (names tb n)). split; [exact Ef|]. rewrite E in Ef at 1.
  destruct (C02_filter_entries d (names tb n) t true _ Hw Hp Ht Hs Ef) as [H1 H2].
  split; [exact H1|]. split; [exact H2|]. rewrite E at 1. rewrite map_length. apply expected_full.
Qed.
(** The attributes of a table, or none *)
Lemma named_filtered tb d t n : named tb -> wf d -> good_target t ->
  exists o, filtered d t (lookup n tb) = Ok o /\ wf (some_attrs o) /\ (o = None <-> lookup n tb = None) /\
            (forall k, lookup k (some_attrs o) = if mem k (names tb n) then pick d t k else None) /\
            (forall l, lookup n tb = Some l ->
               (length (some_attrs o) = length l <-> forall k, In k (names tb n) -> pick d t k <> None)).
Proof.
  intros Hn Hw Ht. unfold filtered. destruct (lookup n tb) as [l|] eqn:El.
  - destruct (named_filter tb d t n l Hn Hw Ht El) as (f & E & Hwf & H1 & H2). exists (Some f). rewrite E.
    split; [reflexivity|]. split; [exact Hwf|]. split; [split; discriminate|]. split; [exact H1|].
    intros l' [= <-]. exact H2.
  - exists None. split; [reflexivity|]. split; [constructor|]. split; [tauto|]. split; [|discriminate].
    intros k. unfold names. rewrite El. reflexivity.
Qed.
Lemma has_permitted args opts n : (has n args || has n opts) = true <-> permitted args opts n.
Proof. rewrite orb_true_iff, !has_keys. reflexivity. Qed.

Section Html.
Context (args opts : table) (name : str) (d : attrs) (t : option str).
Hypotheses (Ha : named args) (Ho : named opts) (Hs : lookup (lit "span") args = None) (Hw : wf d) (Ht : good_target t).
Let allowed := has name args || has name opts.
Let n := if allowed then name else lit "span".
Lemma required_eq tb : (tb = args \/ tb = opts) -> required tb allowed name = lookup n tb.
Proof.
  intros Htb. unfold required, n. destruct allowed eqn:Ea.
  - destruct (lookup name tb); reflexivity.
  - unfold allowed in Ea. apply orb_false_iff in Ea as [E1 E2]. unfold has in E1, E2.
    destruct Htb as [-> | ->].
    + destruct (lookup name args); [discriminate|reflexivity].
    + destruct (lookup name opts); [discriminate|reflexivity].
Qed.
Lemma xhtml_tag_eq :
  exists fr fo : attrs, wf fr /\ wf fo /\
    (forall k, lookup k fr = if mem k (names args n) then pick d t k else None) /\
    (forall k, lookup k fo = if mem k (names opts n) then pick d t k else None) /\
    ((exists k, In k (names args n) /\ pick d t k = None) -> xhtml_tag args opts name d t = Raise OtherError) /\
    ((forall k, In k (names args n) -> pick d t k <> None) ->
     xhtml_tag args opts name d t =
       (do e <- set_all [] fr ; do e <- set_all e fo ;
        do e <- set_all e (if allowed || has (lit "class") fr || has (lit "class") fo then []
               else [(lit "class", VStr name)]) ;
        Ok (n, e))).
Proof.
  destruct (named_filtered args d t n Ha Hw Ht) as (o1 & E1 & W1 & Z1 & L1 & C1).
  destruct (named_filtered opts d t n Ho Hw Ht) as (o2 & E2 & W2 & Z2 & L2 & C2).
  exists (some_attrs o1), (some_attrs o2). split; [exact W1|]. split; [exact W2|]. split; [exact L1|]. split; [exact L2|].
  assert (E : xhtml_tag args opts name d t =
    do _ <- match o1 with
          | Some f => match lookup name args with
                      | Some r => if Nat.eqb (length f) (length r) then Ok tt else Raise OtherError
                      | None => Raise KeyError
                      end
          | None => Ok tt
          end ;
    do e <- set_all [] (some_attrs o1) ; do e <- set_all e (some_attrs o2) ;
        do e <- set_all e (if allowed || has (lit "class") (some_attrs o1) || has (lit "class") (some_attrs o2) then []
               else [(lit "class", VStr name)]) ;
        Ok (n, e)).
  { unfold xhtml_tag. fold allowed. cbv zeta. rewrite !required_eq by auto. rewrite E1, E2. reflexivity. }
  destruct (lookup n args) as [r|] eqn:Er.
  - destruct o1 as [f|]; [|exfalso; destruct Z1 as [Z1 _]; discriminate (Z1 eq_refl)].
    assert (Ea : lookup name args = Some r).
    { unfold n in Er. destruct allowed; [exact Er|]. rewrite Hs in Er. discriminate. }
    specialize (C1 r eq_refl). rewrite Ea in E. cbn [some_attrs] in *. split.
    + intros (k & Hk & Hp). rewrite E. destruct (Nat.eqb_spec (length f) (length r)) as [El|_]; [|reflexivity].
      exfalso. exact (proj1 C1 El k Hk Hp).
    + intros Hall. rewrite E. rewrite (proj2 C1 Hall), Nat.eqb_refl. reflexivity.
  - rewrite (proj2 Z1 eq_refl) in *. split.
    + intros (k & Hk & _). unfold names in Hk. rewrite Er in Hk. destruct Hk.
    + intros _. exact E.
Qed.
End Html.

Lemma contains_snoc (c e : str) x y : x <> y -> contains (c ++ [x]) (e ++ [y]) = true -> contains c (e ++ [y]) = true.
Proof.
  intros Hne H. apply contains_iff in H as (a & b & E). apply contains_iff.
  destruct b as [|z b _] using rev_ind.
  - rewrite app_nil_r, app_assoc in E. apply app_inj_tail in E as [_ E]. contradiction.
  - exists a, b. rewrite !app_assoc in E. apply app_inj_tail in E as [E _]. rewrite E, !app_assoc. reflexivity.
Qed.
Lemma contains_cons (c e : str) x y : x <> y -> contains (x :: c) (y :: e) = true -> contains c (y :: e) = true.
Proof.
  intros Hne H. apply contains_iff in H as (a & b & E). apply contains_iff.
  destruct a as [|z a]; cbn [app] in E; [injection E as E _; contradiction|]. injection E as _ E. exists a, b. exact E.
Qed.
