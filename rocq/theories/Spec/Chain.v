(** What it means that the steps of a build feed each other *)
From Coq Require Import List Bool Arith NArith.
From Verif.Base Require Import Str Dict Result PurePath.
From Verif.Model Require Import Paths Render Chain.
Import ListNotations.

(** One step: who runs, the files it reads, its options, and the file it writes *)
Record step := mkstep { who : nat; renders : bool; reads : list path; opts : list str; writes : option path }.

Section Steps.
Variables (digest hexdigest encode : str -> str) (files : dict path str) (e : env) (added : info -> list param -> list param).

Definition texts (ps : list param) : list str := flat_map (fun p => match p with PPath _ => nil | PText s => [s] end) ps.
Definition paths (ps : list param) : list path := flat_map (fun p => match p with PPath x => [full x] | PText _ => nil end) ps.
Definition written (b : node) : option path :=
  match outfile digest hexdigest encode files e added b with Ok (Some x, _) => Some (full x) | _ => None end.

(** The steps of a builder, in the order in which a sequential build runs them *)
Fixpoint steps (b : node) : list step :=
  match b with
  | Step k i _ _ =>
      let ps := parameters added b in
      [mkstep (b_id i) (match k with Renderer => true | _ => false end) (paths ps) (texts ps) (written b)]
  | Seq _ _ _ _ l => flat_map steps l
  end.
End Steps.

(** Every sequential builder ends with a copy, after which comes nothing *)
Fixpoint ends_with_copy (b : node) : Prop :=
  match b with
  | Step _ _ _ _ => True
  | Seq _ _ _ _ l => (exists r i ps o, l = r ++ [Step Copier i ps o]) /\ fold_right (fun s p => ends_with_copy s /\ p) True l
  end.
Fixpoint nesting (b : node) : nat :=
  match b with Step _ _ _ _ => 0 | Seq _ _ _ _ l => S (fold_right (fun s m => Nat.max (nesting s) m) 0 l) end.

(** Running steps one after the other: [conv] is what a program makes of the contents of the files that it
    reads, and of its options *)
Fixpoint contents (fs : dict path str) (l : list path) : option (list str) :=
  match l with
  | nil => Some nil
  | p :: r => match lookup p fs, contents fs r with Some c, Some d => Some (c :: d) | _, _ => None end
  end.
Fixpoint run (conv : nat -> list str -> list str -> str) (sts : list step) (fs : dict path str) : option (dict path str) :=
  match sts with
  | nil => Some fs
  | s :: r => match contents fs (reads s), writes s with
              | Some c, Some o => run conv r (set o (conv (who s) c (opts s)) fs)
              | _, _ => None
              end
  end.
(** The composition of the programs of the steps *)
Definition composed (conv : nat -> list str -> list str -> str) (sts : list step) (c : str) : str :=
  fold_left (fun c s => conv (who s) [c] (opts s)) sts c.
