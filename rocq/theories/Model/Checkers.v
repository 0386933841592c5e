(** Model of the dependency checkers: /repo/src/disseminate/checkers *)
From Coq Require Import List Bool Arith NArith.
From Verif.Base Require Import Str Result.
Import ListNotations.

(** types.py:4-57, 130-159: dependencies and their lists.  The paths of executables are
    not kept.  [KPlain]: the base class of lists *)
Inductive kind := KAll | KAny | KOptional | KPlain.
Inductive dep :=
| Dep (name : str) (av : option bool)
| Group (k : kind) (category : str) (l : list dep).

(** [x is True] *)
Definition is_true (a : option bool) : bool := match a with Some true => true | _ => false end.
(** types.py:128-159 [available] *)
Fixpoint available (d : dep) : option bool :=
  match d with
  | Dep _ a => a
  | Group KAll _ l => Some (forallb (fun x => is_true (available x)) l)
  | Group KAny _ l => Some (existsb (fun x => is_true (available x)) l)
  | Group KOptional _ _ => Some true
  | Group KPlain _ _ => Some false
  end.
(** The name of a dependency, the category of a list *)
Definition label (d : dep) : str := match d with Dep n _ => n | Group _ c _ => c end.

(** types.py:89-120 [flatten]: beyond 16 levels the recursive call returns None *)
Fixpoint flatten_item (level : nat) (d : dep) : result (list (nat * dep)) :=
  match d with
  | Dep _ _ => Ok [(level, d)]
  | Group _ _ l =>
      if Nat.ltb 16 (S level) then Raise TypeError else
      do r <- (fix each (l : list dep) : result (list (nat * dep)) :=
                match l with
                | nil => Ok nil
                | x :: r => do a <- flatten_item (S level) x ; do b <- each r ; Ok (a ++ b)
                end) l ;
      Ok ((level, d) :: r)
  end.
Fixpoint flatten_each (level : nat) (l : list dep) : result (list (nat * dep)) :=
  match l with
  | nil => Ok nil
  | x :: r => do a <- flatten_item level x ; do b <- flatten_each level r ; Ok (a ++ b)
  end.
Definition flatten (l : list dep) : result (list (nat * dep)) := flatten_each 1 l.

(** types.py:59-68 [__getitem__] with a key and a function applied to the members of the item
    found; nothing if no item is found (types.py:74-79).  A dependency has no members
    (the pip check would take it as a package, and nothing is done without kpsewhich: not modelled). *)
Fixpoint on_category (key : str) (f : list dep -> result (list dep)) (l : list dep) : result (list dep) :=
  match l with
  | nil => Ok nil
  | x :: r =>
      if eqb (label x) key then
        match x with
        | Dep _ _ => Raise TypeError
        | Group k c sub => do sub' <- f sub ; Ok (Group k c sub' :: r)
        end
      else do r' <- on_category key f r ; Ok (x :: r')
  end.

Section Executables.
Context (which : str -> bool).     (** [shutil.which(name) is not None] *)
(** checker.py:62-75: a dependency and the names that were searched *)
Fixpoint check_exec (d : dep) : dep * list str :=
  match d with
  | Dep n None => (Dep n (Some (which n)), [n])
  | Dep n (Some a) => (Dep n (Some a), [])
  | Group k c l => (Group k c (map (fun x => fst (check_exec x)) l), flat_map (fun x => snd (check_exec x)) l)
  end.
(** checker.py:46-75 [check_executables] *)
Definition check_executables (l : list dep) : result (list dep) :=
  on_category (lit "executables") (fun sub => Ok (map (fun x => fst (check_exec x)) sub)) l.
End Executables.

Section Kpsewhich.
Context (installed : bool) (found : str -> bool).   (** the executable, and its result for a file *)
(** pdf.py:54-73: the order of processes (chunks of five) is not modelled *)
Fixpoint kpse (ext : str) (d : dep) : dep :=
  match d with
  | Dep n _ => Dep n (Some (found (n ++ ext)))
  | Group k c l => Group k c (map (kpse ext) l)
  end.
(** pdf.py:34-73 [check_kpsewhich], 75-126 *)
Definition check_kpsewhich (category ext : str) (l : list dep) : result (list dep) :=
  on_category category (fun sub => Ok (if installed then map (kpse ext) sub else sub)) l.
End Kpsewhich.

(** ** Versions *)
Inductive cmp := CEq | CGt | CLt | CGe | CLe | CNe.
Fixpoint take_run (p : char -> bool) (s : str) : str := match s with c :: r => if p c then c :: take_run p r else nil | nil => nil end.
Fixpoint drop_run (p : char -> bool) (s : str) : str := match s with c :: r => if p c then drop_run p r else s | nil => nil end.
(** utils.py:37 *)
Definition operator (s : str) : option cmp * str :=
  if startswith s (lit "==") then (Some CEq, skipn 2 s)
  else if startswith s (lit ">=") then (Some CGe, skipn 2 s)
  else if startswith s (lit "<=") then (Some CLe, skipn 2 s)
  else if startswith s (lit ">") then (Some CGt, skipn 1 s)
  else if startswith s (lit "<") then (Some CLt, skipn 1 s)
  else if startswith s (lit "!=") then (Some CNe, skipn 2 s)
  else (None, s).
(** Only ascii digits are modelled. *)
Definition digit (c : char) : bool := N.leb 48 c && N.leb c 57.
Definition int_of (s : str) : result N :=
  match s with nil => Raise ValueError | _ => Ok (fold_left (fun a c => (10 * a + (c - 48))%N) s 0%N) end.
Fixpoint ints_of (l : list str) : result (list N) :=
  match l with nil => Ok nil | x :: r => do n <- int_of x ; do m <- ints_of r ; Ok (n :: m) end.
(** utils.py:8-65 [name_and_version]: the parts are greedy and all after the name are optional,
    so the search does not go back. *)
Definition name_char (uw : char -> bool) (c : char) : bool := is_word uw c || N.eqb c 46 || N.eqb c 45.
Definition name_and_version (uw : char -> bool) (s : str) : result (option (str * option cmp * option (list N))) :=
  let s := drop_run (fun c => negb (name_char uw c)) s in
  match take_run (name_char uw) s with
  | nil => Ok None
  | name =>
      let (op, s) := operator (drop_run is_space (drop_run (name_char uw) s)) in
      match take_run (fun c => digit c || N.eqb c 46) (drop_run is_space s) with
      | nil => Ok (Some (name, op, None))
      | v => do ns <- ints_of (split_c 46%N v) ; Ok (Some (name, op, Some ns))
      end
  end.
(** Python compares tuples item by item, then by length. *)
Fixpoint tuple_compare (a b : list N) : comparison :=
  match a, b with
  | nil, nil => Eq
  | nil, _ => Lt
  | _, nil => Gt
  | x :: a, y :: b => match N.compare x y with Eq => tuple_compare a b | c => c end
  end.
Definition compares (o : cmp) (a b : list N) : bool :=
  match o, tuple_compare a b with
  | CEq, Eq | CGe, Eq | CLe, Eq | CGe, Gt | CGt, Gt | CLe, Lt | CLt, Lt | CNe, Gt | CNe, Lt => true
  | _, _ => false
  end.

Section Pip.
(** [lower]: str.lower; [freeze]: the lines of pip, in lower case, if pip works *)
Context (uw : char -> bool) (lower : str -> str) (freeze : list str).
(** python.py:62-103: whether to mark a package *)
Definition pip_found (n : str) : result bool :=
  do rv <- name_and_version uw n ;
  match rv with
  | None => Ok false
  | Some (name, op, ver) =>
      match filter (fun i => startswith i (lower name)) freeze with
      | nil => Ok false
      | i :: _ =>
          do rv <- name_and_version uw i ;
          match rv with
          | None => Ok false
          | Some (_, _, iv) =>
              match op, ver, iv with
              | None, None, _ => Ok true
              | _, _, None => Ok false
              | Some o, Some v, Some iv => Ok (compares o iv v)
              | Some CEq, None, Some _ => Ok false
              | Some CNe, None, Some _ => Ok true
              | _, _, _ => Raise TypeError
              end
          end
      end
  end.
(** python.py:42-111 [check_packages_pip] *)
Fixpoint pip (d : dep) : result dep :=
  match d with
  | Dep n a => do b <- pip_found n ; Ok (Dep n (if b then Some true else a))
  | Group k c l =>
      do l' <- (fix each (l : list dep) : result (list dep) :=
                 match l with nil => Ok nil | x :: r => do y <- pip x ; do r' <- each r ; Ok (y :: r') end) l ;
      Ok (Group k c l')
  end.
Fixpoint pip_each (l : list dep) : result (list dep) :=
  match l with nil => Ok nil | x :: r => do y <- pip x ; do r' <- pip_each r ; Ok (y :: r') end.
End Pip.
Definition check_packages_pip (uw : char -> bool) (lower : str -> str) (freeze : option (list str)) (l : list dep) : result (list dep) :=
  match freeze with
  | None => Ok l
  | Some fr => on_category (lit "packages") (pip_each uw lower fr) l
  end.

(** ** Checkers *)
(** checker.py:31-46 [check]: a handler for each category; MissingHandler is [OtherError] *)
Fixpoint run_checks (handlers : str -> option (list dep -> result (list dep))) (cs : list str) (l : list dep) : result (list dep) :=
  match cs with
  | nil => Ok l
  | c :: r =>
      match handlers c with
      | None => Raise OtherError
      | Some f => do l' <- f l ; run_checks handlers r l'
      end
  end.
Definition categories (l : list dep) : list str :=
  flat_map (fun d => match d with Dep _ _ => [] | Group _ c _ => [c] end) l.
Definition check (handlers : str -> option (list dep -> result (list dep))) (name : str) (l : list dep) : result (list dep * option bool) :=
  do l' <- run_checks handlers (categories l) l ; Ok (l', available (Group KAll name l')).

(** external.py: only the handlers of the base class (the one for packages has nothing to run) *)
Definition base_handlers (which : str -> bool) (c : str) : option (list dep -> result (list dep)) :=
  if eqb c (lit "executables") then Some (check_executables which)
  else if eqb c (lit "packages") then Some (fun l => Ok l)
  else None.
(** pdf.py *)
Definition pdf_handlers (which found : str -> bool) (c : str) : option (list dep -> result (list dep)) :=
  let kps := check_kpsewhich (which (lit "kpsewhich")) found in
  if eqb c (lit "executables") then Some (check_executables which)
  else if eqb c (lit "packages") then Some (kps (lit "packages") (lit ".sty"))
  else if eqb c (lit "fonts") then Some (kps (lit "fonts") (lit ".tfm"))
  else if eqb c (lit "classes") then Some (kps (lit "classes") (lit ".cls"))
  else None.
(** python.py *)
Definition python_handlers (which : str -> bool) (uw : char -> bool) (lower : str -> str) (freeze : option (list str)) (c : str) : option (list dep -> result (list dep)) :=
  if eqb c (lit "executables") then Some (check_executables which)
  else if eqb c (lit "packages") then Some (check_packages_pip uw lower freeze)
  else None.

(** ** Reports: cli/setup/checkers.py:29-78 [print_dependencies], without the layout of lines *)
Inductive status := Pass | Fail | Missing | Unknown.
Definition status_of (required : bool) (a : option bool) : status :=
  match a with
  | Some true => Pass
  | Some false => if required then Fail else Missing
  | None => Unknown
  end.
Fixpoint report (required : bool) (level : nat) (d : dep) : list (nat * str * status) :=
  let st := status_of required (available d) in
  match d with
  | Dep n _ => [(level, n, st)]
  | Group KAll c l => (level, c, st) :: flat_map (report true (S level)) l
  | Group KAny c l => (level, c, st) :: flat_map (report false (S level)) l
  | Group KOptional c l => (level, c, st) :: flat_map (report false (S level)) l
  | Group KPlain _ _ => []
  end.
