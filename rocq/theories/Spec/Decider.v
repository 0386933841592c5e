(** Histories of files and builds *)
From Coq Require Import List Bool Arith NArith Permutation.
From Verif.Base Require Import Str Dict Result PurePath.
From Verif.Model Require Import Hash Decider.
Import ListNotations.

(** Files are written and deleted, and builds are registered as finished *)
Inductive event :=
| Write (p : path) (content : str)
| Delete (p : path)
| Finished (inputs : list item) (output : path).

Section Histories.
Variables (digest hexdigest encode bytes_str : str -> str).

Definition step (w : world) (e : event) : result world :=
  match e with
  | Write p c => Ok {| files := set p c (files w); db := db w |}
  | Delete p => Ok {| files := remove p (files w); db := db w |}
  | Finished i o => do r <- build_needed digest hexdigest encode bytes_str w i o true ; Ok (snd r)
  end.
Fixpoint history (w : world) (l : list event) : result world :=
  match l with nil => Ok w | e :: r => do w' <- step w e ; history w' r end.

(** The answers of the decider *)
Definition needed (w : world) (i : list item) (o : path) : Prop :=
  build_needed digest hexdigest encode bytes_str w i o false = Ok (true, w).
Definition not_needed (w : world) (i : list item) (o : path) : Prop :=
  build_needed digest hexdigest encode bytes_str w i o false = Ok (false, w).
(** A build is registered in state [w], with success, and gives [w'] *)
Definition registered (w : world) (i : list item) (o : path) (w' : world) : Prop :=
  build_needed digest hexdigest encode bytes_str w i o true = Ok (false, w').
End Histories.

(** All files of a build exist *)
Definition present (w : world) (i : list item) (o : path) : Prop :=
  (forall p, In (IPath p) i -> exists c, lookup p (files w) = Some c) /\ exists c, lookup o (files w) = Some c.

(** The files of a build are the same in two states *)
Definition same_files (i : list item) (o : path) (w w' : world) : Prop :=
  (forall p, In (IPath p) i -> lookup p (files w') = lookup p (files w)) /\ lookup o (files w') = lookup o (files w).
