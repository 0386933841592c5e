From Coq Require Import List Bool Arith NArith Permutation Sorted Lia.
From Verif.Base Require Import Str StrFacts Dict DictFacts Sort SortFacts Result PurePath ListFacts.
From Verif.Model Require Import Hash.
From Verif.Spec Require Import Hash.
Import ListNotations.

Lemma firstn_nil_inv {A} n (l : list A) : 0 < n -> firstn n l = nil -> l = nil.
Proof. destruct n; [lia|]. destruct l; [auto|discriminate]. Qed.

Lemma read_all_ok n : 0 < n -> forall fuel rest acc, length rest < fuel -> read_all fuel n rest acc = acc ++ rest.
Proof.
  intros Hn. induction fuel as [|f IH]; intros rest acc L; [lia|]. cbn [read_all].
  destruct (firstn n rest) as [|x ch] eqn:E.
  - apply firstn_nil_inv in E; auto. subst. now rewrite app_nil_r.
  - rewrite IH.
    + rewrite <- (firstn_skipn n rest) at 2. rewrite E. now rewrite app_assoc.
    + rewrite skipn_length. destruct rest; [destruct n; discriminate|]. cbn [length] in *. lia.
Qed.

(** The pieces of a text, without an empty last one *)
Definition trim (l : list str) : list str := match last l nil with nil => removelast l | _ => l end.
Lemma split_join_tail a b : forall ls tl, split_c 10%N a = ls ++ [tl] -> split_c 10%N (a ++ b) = ls ++ split_c 10%N (tl ++ b).
Proof.
  induction a as [|x a IH]; intros ls tl E; cbn [split_c app] in *.
  - destruct ls as [|y [|z ls]]; cbn [app] in E.
    all: try discriminate E. assert (tl = nil) as -> by congruence. reflexivity.
  - destruct (eqb_spec 10%N x) as [<-|Hx].
    + destruct ls as [|y ls].
      * cbn [app] in E. destruct (split_c 10%N a) eqn:E'; [now apply split_c_nonnil in E'|discriminate E].
      * cbn [app] in E. assert (y = nil /\ split_c 10%N a = ls ++ [tl]) as [-> E'].
        { split; congruence. }
        rewrite (IH _ _ E'). reflexivity.
    + destruct (split_c 10%N a) as [|w ws] eqn:E'; [now apply split_c_nonnil in E'|].
      destruct ls as [|y ls]; cbn [app] in E.
      * assert (tl = x :: w /\ ws = nil) as [-> ->] by (split; congruence).
        cbn [app]. cbn [split_c]. destruct (eqb_spec 10%N x) as [|_]; [congruence|].
        rewrite (IH nil w eq_refl). reflexivity.
      * assert (y = x :: w /\ ws = ls ++ [tl]) as [-> ->] by (split; congruence).
        rewrite (IH (w :: ls) tl eq_refl). reflexivity.
Qed.
Lemma trim_app ls m : m <> nil -> trim (ls ++ m) = ls ++ trim m.
Proof.
  intros H. unfold trim. rewrite removelast_app by auto.
  replace (last (ls ++ m) nil) with (last m (nil : str)).
  - now destruct (last m nil).
  - destruct (exists_last H) as (m' & x & ->). now rewrite app_assoc, !last_last.
Qed.

Lemma line_splitter_ok n : 0 < n -> forall fuel rest tail, length rest < fuel -> ~ In 10%N tail ->
  line_splitter fuel n rest tail = trim (split_c 10%N (tail ++ rest)).
Proof.
  intros Hn. induction fuel as [|f IH]; intros rest tail L Ht; [lia|]. cbn [line_splitter].
  destruct (firstn n rest) as [|x ch] eqn:E.
  - apply firstn_nil_inv in E; auto. subst. rewrite app_nil_r, split_c_fresh by auto. unfold trim. cbn. now destruct tail.
  - set (chunk := x :: ch) in *. fold (firstn n rest) in E.
    assert (R : rest = chunk ++ skipn n rest) by (rewrite <- E; symmetry; apply firstn_skipn).
    assert (L' : length (skipn n rest) < f).
    { rewrite skipn_length. destruct rest; [destruct n; discriminate|]. cbn [length] in *. lia. }
    destruct (exists_last (split_c_nonnil 10%N (tail ++ chunk))) as (ls & tl & Es).
    assert (Htl : ~ In 10%N tl). { apply (split_c_no_sep 10%N (tail ++ chunk)). rewrite Es. apply in_or_app. right. now left. }
    replace (tail ++ rest) with ((tail ++ chunk) ++ skipn n rest) by (rewrite <- app_assoc; now rewrite <- R).
    rewrite (split_join_tail _ _ _ _ Es), trim_app by apply split_c_nonnil.
    rewrite <- (IH _ _ L' Htl). rewrite Es.
    destruct ls as [|l0 ls]; cbn [app]; [reflexivity|].
    destruct (ls ++ [tl]) as [|y ys] eqn:E2; [destruct ls; discriminate|].
    rewrite <- E2. rewrite removelast_last, last_last. reflexivity.
Qed.

Definition kept (l : str) : bool := negb (existsb (startswith l) stamps).
Lemma kept_stamp l : kept l = false <-> is_stamp l.
Proof.
  unfold kept, stamps, is_stamp. rewrite negb_false_iff. cbn [existsb]. rewrite !orb_true_iff, !startswith_iff. split.
  - intros [[r H]|[[r H]|[[r H]|H]]]; [exists r; auto|exists r; auto|exists r; auto|discriminate].
  - intros [r [H|[H|H]]]; eauto.
Qed.
Lemma filter_text ls t : lines_text ls t <-> t = concat (filter kept ls).
Proof.
  split.
  - induction 1 as [|l ls t H _ IH|l ls t H _ IH]; cbn [filter concat]; auto.
    + rewrite (proj2 (kept_stamp l) H). exact IH.
    + destruct (kept l) eqn:E; [cbn [concat]; now rewrite <- IH|]. apply kept_stamp in E. contradiction.
  - intros ->. induction ls as [|l ls IH]; cbn [filter]; [constructor|].
    destruct (kept l) eqn:E; cbn [concat].
    + apply lt_keep; auto. rewrite <- kept_stamp. congruence.
    + apply lt_stamp; auto. now apply kept_stamp.
Qed.
Lemma trim_text ls : concat (filter kept (trim ls)) = concat (filter kept ls).
Proof.
  unfold trim. destruct (last ls nil) eqn:E; auto. destruct ls as [|a ls0]; auto. set (l := a :: ls0) in *.
  destruct (@exists_last _ l ltac:(discriminate)) as (m & x & Ex). rewrite Ex in *. rewrite last_last in E. subst x.
  rewrite removelast_last, filter_app, concat_app. cbn. now rewrite app_nil_r.
Qed.
Lemma pdf_text_eq c t : pdf_text c t <-> t = concat (filter kept (split_c 10%N c)).
Proof. apply filter_text. Qed.
Lemma hash_pdf_ok digest n c : 0 < n -> hash_pdf digest n c = digest (concat (filter kept (split_c 10%N c))).
Proof.
  intros Hn. unfold hash_pdf. rewrite line_splitter_ok by (auto; intros []).
  cbn [app]. rewrite <- (trim_text (split_c _ c)). reflexivity.
Qed.
Lemma hash_file_ok digest n c : 0 < n -> hash_file digest n c = digest c.
Proof. intros Hn. unfold hash_file. now rewrite read_all_ok by (auto; lia). Qed.

Lemma same_lines_kept a b : same_lines a b -> filter kept a = filter kept b.
Proof.
  induction 1 as [|l a b _ IH|l a b H _ IH|l a b H _ IH]; cbn [filter]; auto.
  - now rewrite IH.
  - now rewrite (proj2 (kept_stamp l) H).
  - now rewrite (proj2 (kept_stamp l) H).
Qed.

(** Sorting texts: the result depends on the items only *)
Lemma sorted_perm_eq (l m : list str) :
  StronglySorted (fun a b => str_leb a b = true) l -> StronglySorted (fun a b => str_leb a b = true) m ->
  Permutation l m -> l = m.
Proof.
  revert m. induction l as [|a l IH]; intros m Hl Hm P.
  - now apply Permutation_nil in P.
  - destruct m as [|b m]; [apply Permutation_sym, Permutation_nil in P; discriminate|].
    inversion Hl as [|? ? Sl Fl]; subst. inversion Hm as [|? ? Sm Fm]; subst.
    assert (a = b) as ->.
    { assert (Ia : In a (b :: m)) by (eapply Permutation_in; [exact P|now left]).
      assert (Ib : In b (a :: l)) by (eapply Permutation_in; [symmetry; exact P|now left]).
      destruct Ia as [|Ia]; auto. destruct Ib as [|Ib]; auto.
      rewrite Forall_forall in Fl, Fm. apply str_leb_antisym; auto. }
    f_equal. apply IH; auto. now apply Permutation_cons_inv in P.
Qed.
Lemma isort_str_perm l m : Permutation l m -> isort str_leb l = isort str_leb m.
Proof.
  intros P. apply sorted_perm_eq.
  - apply isort_sorted; [apply str_leb_total|apply str_leb_trans].
  - apply isort_sorted; [apply str_leb_total|apply str_leb_trans].
  - now rewrite !isort_perm.
Qed.

Section Items.
Variables (digest hexdigest encode : str -> str).
Notation hash_item := (hash_item digest encode). Notation hash_each := (hash_each digest encode).
Notation hash_items := (hash_items digest hexdigest encode).

Lemma hash_item_chunk n m files i : 0 < n -> 0 < m -> hash_item n files i = hash_item m files i.
Proof.
  intros Hn Hm. destruct i; cbn; auto. destruct (lookup p files); auto.
  destruct (eqb _ _); [now rewrite !hash_pdf_ok|now rewrite !hash_file_ok].
Qed.
Lemma hash_each_chunk n m files l : 0 < n -> 0 < m -> hash_each n files l = hash_each m files l.
Proof.
  intros Hn Hm. induction l as [|i l IH]; cbn; auto. rewrite (hash_item_chunk n m) by auto. now rewrite IH.
Qed.
Lemma hash_item_raise n files i e : hash_item n files i = Raise e -> e = FileNotFoundError.
Proof. destruct i; cbn; try discriminate. destruct (lookup p files); [discriminate|]. congruence. Qed.
Lemma hash_each_raise n files l e : hash_each n files l = Raise e -> e = FileNotFoundError.
Proof.
  induction l as [|i l IH]; cbn; [discriminate|]. destruct (hash_item n files i) eqn:E; cbn.
  - destruct (hash_each n files l); cbn; [discriminate|]. exact IH.
  - intros H. injection H as <-. eapply hash_item_raise; eauto.
Qed.
Lemma hash_each_perm n files l m : Permutation l m ->
  match hash_each n files l, hash_each n files m with
  | Ok a, Ok b => Permutation a b
  | Raise _, Raise _ => True
  | _, _ => False
  end.
Proof.
  induction 1 as [|i l m P IH|i j l|l m o P1 IH1 P2 IH2]; cbn.
  - constructor.
  - destruct (hash_item n files i); cbn; auto. destruct (hash_each n files l), (hash_each n files m); cbn; auto.
  - destruct (hash_item n files i), (hash_item n files j); cbn; auto.
    + destruct (hash_each n files l); cbn; auto. constructor.
  - destruct (hash_each n files l), (hash_each n files m), (hash_each n files o); try tauto. etransitivity; eauto.
Qed.
Lemma hash_items_perm n files l m : Permutation l m -> hash_items n true files l = hash_items n true files m.
Proof.
  intros P. unfold hash_items. pose proof (hash_each_perm n files l m P) as H.
  destruct (hash_each n files l) eqn:E1, (hash_each n files m) eqn:E2; cbn; try tauto.
  - now rewrite (isort_str_perm _ _ H).
  - apply hash_each_raise in E1, E2. congruence.
Qed.

Lemma bytes_hash n files i b : 0 < n -> bytes_of encode files i b -> hash_item n files i = Ok (digest b).
Proof.
  intros Hn H. destruct H as [p c H1 H2|p c t H1 H2 H3|b|s]; unfold Hash.hash_item; auto; rewrite H1.
  - destruct (eqb_spec (path_suffix p) (lit ".pdf")); [contradiction|]. now rewrite hash_file_ok.
  - destruct (eqb_spec (path_suffix p) (lit ".pdf")); [|contradiction]. rewrite hash_pdf_ok by auto.
    apply pdf_text_eq in H3. now subst.
Qed.
Lemma hash_bytes n files i h : 0 < n -> hash_item n files i = Ok h -> exists b, bytes_of encode files i b /\ h = digest b.
Proof.
  intros Hn. destruct i as [p|b|s]; unfold Hash.hash_item.
  - destruct (lookup p files) as [c|] eqn:E; [|discriminate]. intros H.
    destruct (eqb_spec (path_suffix p) (lit ".pdf")) as [Es|Es].
    + eexists. split; [eapply bo_pdf; [exact E|exact Es|apply pdf_text_eq; reflexivity]|]. rewrite hash_pdf_ok in H by auto. congruence.
    + exists c. split; [now constructor|]. rewrite hash_file_ok in H by auto. congruence.
  - intros H. exists b. split; [constructor|congruence].
  - intros H. exists (encode s). split; [constructor|congruence].
Qed.
Lemma bytes_fun files i a b : bytes_of encode files i a -> bytes_of encode files i b -> a = b.
Proof.
  intros H1 H2. destruct H1 as [p c H1 H3|p c t H1 H3 H4|b'|s]; inversion H2; subst; try congruence.
  apply pdf_text_eq in H4. match goal with H : pdf_text _ b |- _ => apply pdf_text_eq in H end. congruence.
Qed.
Lemma hash_each_bytes n files l hs : 0 < n -> hash_each n files l = Ok hs ->
  exists bs, Forall2 (bytes_of encode files) l bs /\ hs = map digest bs.
Proof.
  intros Hn. revert hs. induction l as [|i l IH]; cbn; intros hs H.
  - injection H as <-. exists nil. split; constructor.
  - destruct (hash_item n files i) eqn:E; cbn in H; [|discriminate].
    destruct (hash_each n files l) eqn:E2; cbn in H; [|discriminate].
    destruct (IH _ eq_refl) as (bs & H1 & ->). destruct (hash_bytes _ _ _ _ Hn E) as (b & H2 & ->).
    injection H as <-. exists (b :: bs). split; auto.
Qed.
Lemma bytes_hash_each n files l bs : 0 < n -> Forall2 (bytes_of encode files) l bs -> hash_each n files l = Ok (map digest bs).
Proof.
  intros Hn. induction 1 as [|i b l bs H _ IH]; cbn; auto. rewrite (bytes_hash _ _ _ _ Hn H), IH. reflexivity.
Qed.

(** Texts of the same length, one after the other, can be told apart *)
Lemma concat_inj k (l m : list str) : 0 < k -> Forall (fun x => length x = k) l -> Forall (fun x => length x = k) m ->
  concat l = concat m -> l = m.
Proof.
  intros Hk Fl. revert m. induction Fl as [|x l Hx Fl IH]; intros m Fm E; destruct Fm as [|y m Hy Fm]; auto; cbn in E.
  - destruct y; [cbn in *; lia|discriminate].
  - destruct x; [cbn in *; lia|discriminate].
  - apply app_len_inj in E; [|congruence]. destruct E as [-> E]. f_equal. auto.
Qed.
Lemma map_inj_perm (S : str -> Prop) l m : no_collision digest S -> Forall S l -> Forall S m ->
  Permutation (map digest l) (map digest m) -> Permutation l m.
Proof.
  intros HS. revert m. induction l as [|x l IH]; intros m Fl Fm P.
  - cbn in P. apply Permutation_nil in P. destruct m; [constructor|discriminate].
  - inversion Fl as [|? ? Sx Fl']; subst.
    assert (I : In (digest x) (map digest m)) by (eapply Permutation_in; [exact P|now left]).
    apply in_map_iff in I. destruct I as (y & Ey & Iy).
    assert (Sy : S y) by (rewrite Forall_forall in Fm; auto).
    assert (y = x) as -> by (apply HS; auto).
    apply in_split in Iy. destruct Iy as (m1 & m2 & ->).
    apply Permutation_cons_app. apply IH; auto.
    + apply Forall_app in Fm. destruct Fm as [F1 F2]. inversion F2; subst. apply Forall_app; auto.
    + rewrite map_app in *. cbn in P. apply Permutation_cons_app_inv in P. exact P.
Qed.
End Items.
