(** What the context of a document says (C62) *)
From Coq Require Import List Bool Arith NArith ZArith.
From Verif.Base Require Import Str Dict Result PurePath.
From Verif.Model Require Import StringUtils Paths Context.
From Verif.Spec Require Import Context.
Import ListNotations.

(** The entry with the targets: 'target' if there is one, or else 'targets' *)
Definition entry_of (names : list str) (d : dict str tree) : option tree :=
  fold_right (fun k r => match lookup k d with Some t => Some t | None => r end) None names.

(** The names the user wrote: the items of a text separated by commas or
    semicolons (C08), or those of a list or set *)
Definition written (t : option tree) (names : list str) : Prop :=
  match t with
  | None => names = nil
  | Some v => items_of v = Some (map (fun n => TS (SStr n)) names)
  end.

(** A file extension for a name: with one leading period added if it has none *)
Definition extension_for (name ext : str) : Prop :=
  (exists r, name = lit "." ++ r /\ ext = name) \/
  ((forall r, name <> lit "." ++ r) /\ ext = lit "." ++ name).

(** A line that has something in it *)
Definition something (line : str) : bool := existsb (fun c => negb (is_space c)) line.

(** What a reset reads and writes, entry by entry *)
Definition given (t : option tree) : bool :=
  match t with None | Some (TS (SOpq 0 0)) => false | _ => true end.
