(** C04, C05: the list utilities. *)
From Coq Require Import List Bool Arith Lia ZArith.
From Verif.Base Require Import Str StrFacts Dict Result.
From Verif.Model Require Import ListUtils.
From Verif.Spec Require Import ListUtils.
From Verif.Proof Require Import ListUtils.
Import ListNotations.

(** C04: [uniq] keeps exactly the first occurrences, in order. *)
Theorem C04_uniq_first_occurrences :
  forall (A K : Type) (E : EqDec K) (key : A -> K) (l : list A),
    uniq_by key l = first_occurrences key l.
Proof. intros. apply uniq_by_first. Qed.

(** C04: the result has no two elements with the same key, has every key of
    the input and nothing that is not in the input. *)
Theorem C04_uniq_members :
  forall (A K : Type) (E : EqDec K) (key : A -> K) (l : list A),
    NoDup (map key (uniq_by key l)) /\
    (forall x, In x (uniq_by key l) -> In x l) /\
    (forall x, In x l -> exists y, In y (uniq_by key l) /\ key y = key x).
Proof.
  intros A K E key l. unfold uniq_by. split; [|split].
  - apply uv_NoDup.
  - intros x Hx. apply uv_In in Hx. tauto.
  - intros x Hx. assert (Hk : In (key x) (map key (unique_everseen key [] l))).
    { apply uv_key_mem; [apply in_map; exact Hx|simpl; tauto]. }
    apply in_map_iff in Hk as (y & Hy & Hin). eauto.
Qed.

(** C04: without a key the members are exactly those of the input. *)
Theorem C04_uniq_plain :
  forall (A : Type) (E : EqDec A) (l : list A),
    NoDup (uniq l) /\ forall x, In x (uniq l) <-> In x l.
Proof.
  intros A E l. destruct (C04_uniq_members A A E (fun x => x) l) as (H1 & H2 & H3).
  rewrite map_id in H1. split; [exact H1|]. intros x. split; [apply H2|].
  intros Hx. destruct (H3 x Hx) as (y & Hy & ->). exact Hy.
Qed.

(** C04: applying [uniq] again changes nothing, and a list without duplicates
    is returned as it is. *)
Theorem C04_uniq_idempotent :
  forall (A K : Type) (E : EqDec K) (key : A -> K) (l : list A),
    uniq_by key (uniq_by key l) = uniq_by key l /\
    (NoDup (map key l) -> uniq_by key l = l).
Proof.
  intros A K E key l. split; [|intros Hn]; apply uv_id; auto.
  apply uv_NoDup.
Qed.

(** C04: [dupes] keeps, in order, exactly the items whose key occurs at least
    twice. *)
Theorem C04_dupes :
  forall (A K : Type) (E : EqDec K) (key : A -> K) (l : list A),
    dupes_by key l = filter (fun x => 2 <=? occurrences key (key x) l) l.
Proof. intros. apply dupes_by_filter. Qed.

(** C04: [dupes] is empty exactly when the keys are all different. *)
Theorem C04_dupes_empty :
  forall (A K : Type) (E : EqDec K) (key : A -> K) (l : list A),
    dupes_by key l = [] <-> NoDup (map key l).
Proof.
  intros A K E key l. rewrite dupes_by_filter, NoDup_occurrences. split.
  - intros Hd k. destruct (le_lt_dec (occurrences key k l) 1) as [|Hl]; [assumption|].
    exfalso. assert (Hin : In k (map key l)) by (apply occurrences_pos; lia).
    apply in_map_iff in Hin as (x & <- & Hx).
    assert (Hn : In x []); [|destruct Hn]. rewrite <- Hd. apply filter_In.
    split; [exact Hx|apply Nat.leb_le; lia].
  - intros Hk. destruct (filter _ l) as [|x r] eqn:Ef; [reflexivity|].
    assert (Hx : In x (filter (fun x => 2 <=? occurrences key (key x) l) l))
      by (rewrite Ef; left; reflexivity).
    apply filter_In in Hx as [_ Hx]. apply Nat.leb_le in Hx. specialize (Hk (key x)). lia.
Qed.

(** Non-vacuity: the examples of the documentation. *)
Example C04_ex :
  uniq [1; 2; 2; 3; 3; 3; 4] = [1; 2; 3; 4] /\
  dupes [1; 2; 2; 3; 3; 3; 4; 6; 6] = [2; 2; 3; 3; 3; 6; 6] /\
  uniq_by snd [(1, 7); (2, 7); (3, 8)] = [(1, 7); (3, 8)] /\
  dupes_by snd [(1, 7); (2, 7); (3, 8)] = [(1, 7); (2, 7)].
Proof. repeat split. Qed.

(** C05: the chunks concatenate back to the list, for every positive size. *)
Theorem C05_chunks_concat :
  forall (A : Type) (l : list A) (n : Z), (0 < n)%Z ->
    exists ps, chunks l n = Ok ps /\ concat ps = l.
Proof.
  intros A l n Hn. rewrite <- (Z2Nat.id n) by lia. set (k := Z.to_nat n).
  assert (Hk : 0 < k) by lia. clearbody k. clear n Hn.
  eexists. split; [apply chunks_pieces; exact Hk|].
  apply pieces_concat. apply ceil_bounds. exact Hk.
Qed.

(** C05: all chunks have the requested size, except that the last one may be
    shorter, but never empty. *)
Theorem C05_chunks_sizes :
  forall (A : Type) (l : list A) (n : Z) ps, (0 < n)%Z -> chunks l n = Ok ps ->
    forall i p, nth_error ps i = Some p ->
      (S i < length ps -> Z.of_nat (length p) = n) /\
      (0 < Z.of_nat (length p) <= n)%Z.
Proof.
  intros A l n ps Hn. rewrite <- (Z2Nat.id n) by lia. set (k := Z.to_nat n).
  assert (Hk : 0 < k) by lia. clearbody k. clear n Hn.
  rewrite chunks_pieces by exact Hk. intros [= <-] i p Hp.
  rewrite pieces_length. destruct (ceil_bounds (length l) k Hk) as [B1 B2].
  destruct (pieces_lengths k _ l Hk B1 B2 i p Hp) as [H1 H2].
  split; [intros; rewrite H1 by assumption; reflexivity|lia].
Qed.

(** C05: for the size 0 an error is raised, and only then; a negative size
    yields nothing. *)
Theorem C05_chunks_other_sizes :
  forall (A : Type) (l : list A) (n : Z),
    (chunks l n = Raise ValueError <-> n = 0%Z) /\ ((n < 0)%Z -> chunks l n = Ok []).
Proof.
  intros A l n. unfold chunks. destruct (Z.eqb_spec n 0); destruct (Z.ltb_spec n 0);
    repeat split; try tauto; try lia; try congruence.
Qed.

Example C05_chunks_ex : chunks [1; 2; 3; 4; 5] 2 = Ok [[1; 2]; [3; 4]; [5]].
Proof. reflexivity. Qed.

(** C05: flattening yields the leaves of the nested lists, each once, left to
    right, and nothing else. *)
Theorem C05_flatten_leaves :
  forall (A : Type) (l : list (pval A)) (out : list A),
    leaves (PList l) out <-> out = flatten l.
Proof.
  intros A l out. split.
  - intros Hl. apply leaves_fun in Hl. exact Hl.
  - intros ->. apply (flatten_val_leaves (PList l)).
Qed.

(** C05: a list with no nested list is unchanged. *)
Theorem C05_flatten_flat :
  forall (A : Type) (l : list A), flatten (map Atom l) = l.
Proof. intros A l. unfold flatten. induction l; simpl; [reflexivity|]. f_equal. assumption. Qed.

Example C05_flatten_ex :
  flatten [PList [Atom 1; Atom 2]; PList [Atom 3; PList [Atom 4; Atom 5]; Atom 6]; Atom 7]
  = [1; 2; 3; 4; 5; 6; 7].
Proof. reflexivity. Qed.

(** C05: unwrapping removes all one-element lists around a value and nothing
    else: it is the unique value that is not itself a one-element list from
    which the argument is obtained by wrapping. *)
Theorem C05_unwrap :
  forall (A : Type) (u v : pval A),
    unwrap v = u <-> wrapped u v /\ (forall w, u <> PList [w]).
Proof.
  intros A u v. split.
  - intros <-. split; [apply unwrap_wrapped|]. intros w. apply unwrap_not_single.
  - intros [H1 H2]. apply wrapped_core; assumption.
Qed.

Example C05_unwrap_ex :
  unwrap (PList [PList [PList [Atom 3]]]) = Atom 3 /\
  unwrap (PList [Atom 1; Atom 2]) = PList [Atom 1; Atom 2].
Proof. split; reflexivity. Qed.

(** C05: transposing a rectangular table exchanges rows and columns, cell by
    cell, ... *)
Theorem C05_transpose_cells :
  forall (A : Type) (n m : nat) (t : list (list A)),
    rectangular n m t -> 0 < n ->
    rectangular m n (transpose t) /\ forall i j, cell (transpose t) j i = cell t i j.
Proof. intros A n m t. apply transpose_rect. Qed.

(** ... and twice gives the table back (a table must have a row and a column:
    without a row there is no column count to remember). *)
Theorem C05_transpose_involutive :
  forall (A : Type) (n m : nat) (t : list (list A)),
    rectangular n m t -> 0 < n -> 0 < m -> transpose (transpose t) = t.
Proof.
  intros A n m t R Hn Hm. destruct (transpose_rect n m t R Hn) as [R1 C1].
  destruct (transpose_rect m n _ R1 Hm) as [R2 C2].
  apply (rect_ext n m); auto. intros i j. rewrite C2, C1. reflexivity.
Qed.

(** A ragged table loses cells, as documented. *)
Example C05_transpose_ex :
  rectangular 2 3 [[1; 2; 3]; [4; 5; 6]] /\
  transpose [[1; 2; 3]; [4; 5; 6]] = [[1; 4]; [2; 5]; [3; 6]] /\
  transpose [[1; 2; 3]; [4; 5]] = [[1; 4]; [2; 5]].
Proof. repeat split; repeat constructor. Qed.
