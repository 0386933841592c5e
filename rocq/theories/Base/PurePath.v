(** Paths of Python's pathlib on posix systems.  (Model of CPython; no file in
    /repo.)  The root of a path that starts with exactly two slashes is not
    told apart from '/'. *)
From Coq Require Import List NArith Bool Arith.
From Verif.Base Require Import Str Result.
Import ListNotations.

Record path := mkpath { absolute : bool; parts : list str }.

Definition path_eqb (p q : path) : bool := Bool.eqb (absolute p) (absolute q) && eqb (parts p) (parts q).
Lemma path_eqb_spec : forall p q, reflect (p = q) (path_eqb p q).
Proof.
  intros [a x] [b y]. unfold path_eqb. simpl. destruct (Bool.eqb_spec a b); simpl; [|constructor; congruence].
  destruct (eqb_spec x y); constructor; congruence.
Qed.
#[global] Instance EqDec_path : EqDec path := {| eqb := path_eqb; eqb_spec := path_eqb_spec |}.

(** [Path(s)]: empty parts and single dots are dropped *)
Definition real_part (x : str) : bool := negb (eqb x nil) && negb (eqb x (lit ".")).
Definition of_str (s : str) : path :=
  mkpath (startswith s (lit "/")) (filter real_part (split_c 47%N s)).

(** [str(p)] *)
Definition path_str (p : path) : str :=
  if absolute p then lit "/" ++ join (lit "/") (parts p)
  else match parts p with nil => lit "." | _ => join (lit "/") (parts p) end.

(** [p / q] *)
Definition path_join (p q : path) : path :=
  if absolute q then q else mkpath (absolute p) (parts p ++ parts q).

(** [p.name] *)
Definition path_name (p : path) : str := last (parts p) nil.
(** [p.parent] *)
Definition path_parent (p : path) : path := mkpath (absolute p) (removelast (parts p)).

(** A name as stem and suffix: the last dot, unless it is the first or the last
    character *)
Fixpoint cut_dot (r acc : str) : option (str * str) :=
  match r with
  | nil => None
  | c :: r' => if N.eqb c 46 then match r', acc with nil, _ | _, nil => None | _, _ => Some (rev r', 46%N :: acc) end
               else cut_dot r' (c :: acc)
  end.
Definition split_name (n : str) : str * str :=
  match cut_dot (rev n) nil with Some p => p | None => (n, nil) end.
(** [p.stem] and [p.suffix] *)
Definition path_stem (p : path) : str := fst (split_name (path_name p)).
Definition path_suffix (p : path) : str := snd (split_name (path_name p)).

(** [p.with_name(n)]: the name must be one part *)
Definition with_name (p : path) (n : str) : result path :=
  match parts p with
  | nil => Raise ValueError
  | _ => if eqb n nil || eqb n (lit ".") || mem 47%N n then Raise ValueError
         else Ok (mkpath (absolute p) (removelast (parts p) ++ [n]))
  end.
(** [p.with_suffix(s)] *)
Definition with_suffix (p : path) (s : str) : result path :=
  if mem 47%N s || (negb (eqb s nil) && negb (startswith s (lit "."))) || eqb s (lit ".") then Raise ValueError
  else match parts p with
       | nil => Raise ValueError
       | _ => Ok (mkpath (absolute p) (removelast (parts p) ++ [path_stem p ++ s]))
       end.
