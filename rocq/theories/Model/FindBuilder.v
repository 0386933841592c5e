(** Model of the choice of a builder class:
    /repo/src/disseminate/builders/builder.py:485-550 and
    composite_builders/parallel_builder.py *)
From Coq Require Import List Bool Arith NArith String.
From Verif.Base Require Import Str Dict Result PurePath.
Import ListNotations.

(** What is used of a builder class.  [act] is the answer of its method
    'active' (builder.py:165-211, tested at import for all classes with a
    priority).  Extensions may be None. *)
Record cls := { cname : str; in_ext : option str; out_ext : option str; priority : nat; available : bool; act : bool }.

(** A tree of subclasses *)
Inductive classes := Class (c : cls) (subs : list classes).
(** utils/classes.py:8-31 [all_subclasses]: first the direct subclasses, then the
    subclasses of each *)
Definition cls_of (t : classes) : cls := match t with Class c _ => c end.
Fixpoint all_subclasses (t : classes) : list cls :=
  match t with Class _ subs => map cls_of subs ++ flat_map all_subclasses subs end.

Notation key := (option str * option str)%type.
(** builder.py:502-519: the available builders (the cache is filled once) *)
Definition add_cls (d : dict key cls) (c : cls) : dict key cls :=
  if negb (available c) || negb (act c) then d else
  let k := (in_ext c, out_ext c) in
  match lookup k d with
  | None => set k c d
  | Some c' => if Nat.ltb (priority c') (priority c) then set k c d else d
  end.
Definition available_builders (l : list cls) : dict key cls := fold_left add_cls l nil.

(** settings.py:248-255 [tracked_deps] *)
Definition tracked_deps : dict str (list str) :=
  [(lit ".html", [lit ".css"; lit ".svg"; lit ".png"]);
   (lit ".xhtml", [lit ".css"; lit ".svg"; lit ".png"]);
   (lit ".tex", [lit ".pdf"; lit ".png"]);
   (lit ".css", [lit ".css"])].

(** builder.py:538-542: the first format with a converter *)
Fixpoint first_converter (d : dict key cls) (i : option str) (exts : list str) : option cls :=
  match exts with
  | nil => None
  | e :: r => match lookup (i, Some e) d with Some c => Some c | None => first_converter d i r end
  end.

(** builder.py:485-550 [find_builder_cls] with raise_error=True; [l] are the
    subclasses of Builder and [tracked] is settings.tracked_deps *)
Definition find_builder_cls (tracked : dict str (list str)) (l : list cls) (i o : option str) (target : option str) : result cls :=
  let d := available_builders l in
  match target, lookup (i, o) d with
  | None, Some c => Ok c
  | None, None => Raise BuildError
  | Some t, _ =>
      let t := if startswith t (lit ".") then t else lit "." ++ t in
      match lookup t tracked with
      | None => Raise BuildError
      | Some exts =>
          if existsb (fun e => eqb i (Some e)) exts then
            match lookup (Some (lit ".*"), Some (lit ".*")) d with Some c => Ok c | None => Raise KeyError end
          else match first_converter d i exts with Some c => Ok c | None => Raise BuildError end
      end
  end.

(** composite_builders/parallel_builder.py:63-83 (in [add_build]): the extensions
    from the parameters and the output.  Parameters are paths or texts, and the
    output is a path, a text or absent. *)
Inductive arg := APath (p : path) | AText (s : str).
Definition arg_exts (args : list arg) : list str :=
  flat_map (fun a => match a with AText s => if startswith s (lit ".") then [s] else nil | APath _ => nil end) args ++
  flat_map (fun a => match a with APath p => [path_suffix p] | AText _ => nil end) args.
Definition in_ext_of (args : list arg) : option str := hd_error (arg_exts args).
Definition out_ext_of (o : option arg) : option str :=
  match o with
  | Some (AText s) => if startswith s (lit ".") then Some s else None
  | Some (APath p) => Some (path_suffix p)
  | None => None
  end.
