(** Model of the status and the build methods of builders:
    /repo/src/disseminate/builders/builder.py, copy.py, save_temp.py and
    composite_builders/*.py

    Builders run processes in the background (executor.py), and anyone may
    change files at any time.  The model has a schedule for this: every time the
    status of a builder that is not composite is read, the next group of events
    of the schedule happens first.  The theorems hold for all schedules. *)
From Coq Require Import List Bool Arith NArith.
From Verif.Base Require Import Str Dict Sort Result PurePath.
From Verif.Model Require Import Hash Decider.
Import ListNotations.

(** builder.py:214-227: the states.  'inactive' is one of them. *)
Inductive status := Done | Ready | Building | MissingParameters | MissingOutfile | Cancelled | Inactive.
Definition status_eqb (x y : status) : bool :=
  match x, y with
  | Done, Done | Ready, Ready | Building, Building | MissingParameters, MissingParameters
  | MissingOutfile, MissingOutfile | Cancelled, Cancelled | Inactive, Inactive => true
  | _, _ => false
  end.

(** The future of a process (executor.py:18-27): running, cancelled, ended with
    an exception, or with an exit code *)
Inductive future := Running | WasCancelled | Failed (e : exc) | Exit (code : nat).

(** Builders that are not composite.  [active] is the answer of their class
    (builder.py:165-211, before the cache). *)
Inductive kind := Command | Copy | Save.
Record leaf := { lid : nat; lkind : kind; active : bool; params : list item; action : str; out : path }.

(** composite_builders/*.py; a composite builder has parameters and an output
    of its own *)
Record comp := { parallel : bool; clear_done : bool; cparams : list item; caction : str; cout : path }.
Inductive builder := Leaf (l : leaf) | Comp (c : comp) (subs : list builder).

(** What may happen at any time, and what is recorded *)
Inductive event := EWrite (p : path) (content : str) | EDelete (p : path) | EFuture (id : nat) (f : future).
Inductive entry := Seen (id : nat) (st : status) | Started (id : nat).

Record sys := {
  wd : world;                     (* the files and the database of the decider *)
  futures : dict nat future;      (* attribute 'future' of the builders *)
  checked : list nat;             (* builders with _missing_parameters = False *)
  sched : list (list event);
  trace : list entry }.
Definition set_wd (w : world) (s : sys) : sys := {| wd := w; futures := futures s; checked := checked s; sched := sched s; trace := trace s |}.
Definition set_future (id : nat) (f : future) (s : sys) : sys := {| wd := wd s; futures := set id f (futures s); checked := checked s; sched := sched s; trace := trace s |}.
Definition set_checked (id : nat) (s : sys) : sys := {| wd := wd s; futures := futures s; checked := id :: checked s; sched := sched s; trace := trace s |}.
Definition note (e : entry) (s : sys) : sys := {| wd := wd s; futures := futures s; checked := checked s; sched := sched s; trace := trace s ++ [e] |}.
Definition write (p : path) (c : str) (s : sys) : sys := set_wd {| files := set p c (files (wd s)); db := db (wd s) |} s.

(** A process that has ended does not change any more *)
Definition happen (s : sys) (e : event) : sys :=
  match e with
  | EWrite p c => write p c s
  | EDelete p => set_wd {| files := remove p (files (wd s)); db := db (wd s) |} s
  | EFuture id f => match lookup id (futures s) with Some Running => set_future id f s | _ => s end
  end.
Definition tick (s : sys) : sys :=
  match sched s with
  | nil => s
  | es :: r => fold_left happen es {| wd := wd s; futures := futures s; checked := checked s; sched := r; trace := trace s |}
  end.

Definition is_path (i : item) : bool := match i with IPath _ => true | _ => false end.
Definition exists_in (w : world) (i : item) : bool := match i with IPath p => has p (files w) | _ => true end.

Section Builders.
Variables (digest hexdigest encode bytes_str : str -> str).

(** builder.py:277-287 [build_needed]: the inputs are the parameters and the
    action.  Parameters from signals are not modelled. *)
Definition inputs_of (ps : list item) (act : str) : list item := ps ++ match act with nil => nil | _ => [IText act] end.
Definition decide (ps : list item) (act : str) (o : path) (reset : bool) (s : sys) : result (bool * sys) :=
  do r <- build_needed digest hexdigest encode bytes_str (wd s) (inputs_of ps act) o reset ; Ok (fst r, set_wd (snd r) s).

(** builder.py:303-323 [missing_parameters] *)
Definition missing_parameters (l : leaf) (s : sys) : bool * sys :=
  if mem (lid l) (checked s) then (false, s) else
  match params l with
  | nil => (true, s)
  | _ => if forallb (exists_in (wd s)) (params l) then (false, set_checked (lid l) s) else (true, s)
  end.

(** builder.py:213-275 [status].  [self.active] (line 227) is a method, and not
    its answer, so that the test for 'inactive' never succeeds. *)
Definition status_base (l : leaf) (s : sys) : result (status * sys) :=
  let '(m, s) := missing_parameters l s in
  if m then Ok (MissingParameters, s) else
  do r <- decide (params l) (action l) (out l) false s ;
  if negb (fst r) then Ok (Done, snd r) else
  let s := snd r in
  match lookup (lid l) (futures s) with
  | None => Ok (Ready, s)
  | Some Running => Ok (Building, s)
  | Some WasCancelled => Ok (Cancelled, s)
  | Some (Failed e) => Raise e
  | Some (Exit O) =>
      if has (out l) (files (wd s)) then
        do r <- decide (params l) (action l) (out l) true s ; Ok (Done, snd r)
      else Ok (MissingOutfile, s)
  | Some (Exit (S _)) => Raise BuildError
  end.

(** copy.py:41-52 [status] *)
Definition first_path (ps : list item) : option path :=
  match filter is_path ps with IPath p :: _ => Some p | _ => None end.
Definition status_copy (l : leaf) (s : sys) : result (status * sys) :=
  do r <- decide (params l) (action l) (out l) false s ;
  let s := snd r in
  if negb (fst r) || eqb (first_path (params l)) (Some (out l)) then Ok (Done, s)
  else if forallb (exists_in (wd s)) (params l) then Ok (Ready, s) else Ok (MissingParameters, s).

(** The status of a builder that is not composite, after what happened before *)
Definition status_leaf (l : leaf) (s : sys) : result (status * sys) :=
  let s := tick s in
  do r <- match lkind l with Copy => status_copy l s | _ => status_base l s end ;
  Ok (fst r, note (Seen (lid l) (fst r)) (snd r)).

(** composite_builder.py:43: the statuses of all builders, in order *)
Definition statuses (f : builder -> sys -> result (status * sys)) : list builder -> sys -> result (list status * sys) :=
  fix go (l : list builder) (s : sys) : result (list status * sys) :=
    match l with
    | nil => Ok (nil, s)
    | b :: l' => do x <- f b s ; do y <- go l' (snd x) ; Ok (fst x :: fst y, snd y)
    end.
(** composite_builder.py:44-48 *)
Definition first_open (l : list status) : status :=
  match filter (fun st => negb (status_eqb st Done)) l with nil => Done | st :: _ => st end.
(** composite_builder.py:41-48 [status] *)
Fixpoint status_of (b : builder) (s : sys) : result (status * sys) :=
  match b with
  | Leaf l => status_leaf l s
  | Comp c subs => do r <- statuses status_of subs s ; Ok (first_open (fst r), snd r)
  end.

(** builder.py:277-287 and parallel_builder.py:12-13 [build_needed] *)
Fixpoint needed_of (reset : bool) (b : builder) (s : sys) : result (bool * sys) :=
  match b with
  | Leaf l => decide (params l) (action l) (out l) reset s
  | Comp c subs =>
      if parallel c then
        (fix go (l : list builder) (s : sys) : result (bool * sys) :=
           match l with
           | nil => Ok (false, s)
           | b' :: l' => do x <- needed_of reset b' s ; if fst x then Ok x else go l' (snd x)
           end) subs s
      else decide (cparams c) (caction c) (cout c) reset s
  end.

(** builder.py:439-450 [run_cmd] *)
Definition run_cmd (l : leaf) (s : sys) : sys :=
  match lookup (lid l) (futures s) with
  | None => note (Started (lid l)) (set_future (lid l) Running s)
  | Some _ => s
  end.
Definition going (st : status) : bool := match st with Building | Ready => true | _ => false end.

(** builder.py:452-483, copy.py:54-70 and save_temp.py:45-59 [build] with
    complete=False.  The first parameter of a copy must be a path. *)
Definition build_leaf (l : leaf) (s : sys) : result (status * sys) :=
  match lkind l with
  | Command =>
      do r <- status_leaf l s ;
      status_leaf l (if going (fst r) then run_cmd l (snd r) else snd r)
  | Copy =>
      do r <- status_leaf l s ;
      let s := snd r in
      match fst r with
      | Ready =>
          match params l with
          | IPath p :: _ =>
              match lookup p (files (wd s)) with
              | Some c =>
                  do x <- decide (params l) (action l) (out l) true (write (out l) c (note (Started (lid l)) s)) ;
                  status_leaf l (snd x)
              | None => Raise FileNotFoundError
              end
          | _ => Raise OtherError
          end
      | _ => status_leaf l s
      end
  | Save =>
      match filter (fun i => match i with IText _ => true | _ => false end) (params l) with
      | IText t :: _ =>
          do x <- decide (params l) (action l) (out l) true (write (out l) (encode t) (note (Started (lid l)) s)) ;
          status_leaf l (snd x)
      | _ => Raise BuildError
      end
  end.

(** composite_builder.py:107-111: removal of builders that are done.  (All
    builders are different objects.) *)
Fixpoint clear_subs (l : list builder) (s : sys) : result (list builder * sys) :=
  match l with
  | nil => Ok (nil, s)
  | b :: l' =>
      do x <- status_of b s ;
      do y <- clear_subs l' (snd x) ;
      Ok (if status_eqb (fst x) Done then fst y else b :: fst y, snd y)
  end.

(** composite_builder.py:64-93 [run_build_once]; [bld] is the method 'build' of
    the builders *)
Definition run_once (bld : builder -> sys -> result (status * builder * sys)) (par : bool) :
  list builder -> sys -> result (list builder * sys) :=
  fix go (l : list builder) (s : sys) : result (list builder * sys) :=
    match l with
    | nil => Ok (nil, s)
    | b :: l' =>
        do x <- status_of b s ;
        match fst x with
        | Done => do y <- go l' (snd x) ; Ok (b :: fst y, snd y)
        | Building => if par then do y <- go l' (snd x) ; Ok (b :: fst y, snd y) else Ok (b :: l', snd x)
        | Ready =>
            do z <- bld b (snd x) ;
            if par then do y <- go l' (snd z) ; Ok (snd (fst z) :: fst y, snd y) else Ok (snd (fst z) :: l', snd z)
        | _ => Ok (b :: l', snd x)
        end
    end.

(** composite_builder.py:102-113: the end of [build] *)
Definition finish (c : comp) (subs : list builder) (s : sys) : result (status * builder * sys) :=
  do r2 <- status_of (Comp c subs) s ;
  do r3 <- (if status_eqb (fst r2) Done then needed_of true (Comp c subs) (snd r2) else Ok (false, snd r2)) ;
  do r4 <- (if clear_done c then clear_subs subs (snd r3) else Ok (subs, snd r3)) ;
  Ok (fst r2, Comp c (fst r4), snd r4).

(** composite_builder.py:63-113 [build] with complete=False *)
Fixpoint build (b : builder) (s : sys) : result (status * builder * sys) :=
  match b with
  | Leaf l => do r <- build_leaf l s ; Ok (fst r, Leaf l, snd r)
  | Comp c subs =>
      do r <- status_of (Comp c subs) s ;
      do r1 <- (if going (fst r) then run_once build (parallel c) subs (snd r) else Ok (subs, snd r)) ;
      finish c (fst r1) (snd r1)
  end.

(** composite_builder.py:95-97 and 102-113 [build] with complete=True; at most
    [n] rounds, and None when these are not enough *)
Fixpoint build_complete (n : nat) (c : comp) (subs : list builder) (s : sys) : result (option status * builder * sys) :=
  match n with
  | O => Ok (None, Comp c subs, s)
  | S n' =>
      do r <- status_of (Comp c subs) s ;
      if going (fst r) then
        do r1 <- run_once build (parallel c) subs (snd r) ;
        build_complete n' c (fst r1) (snd r1)
      else do f <- finish c subs (snd r) ; Ok (Some (fst (fst f)), snd (fst f), snd f)
  end.

(** target_builders/receivers.py:129-136: builds until nothing is going on; at
    most [n] rounds *)
Fixpoint build_loop (n : nat) (b : builder) (s : sys) : result (option status * builder * sys) :=
  match n with
  | O => Ok (None, b, s)
  | S n' =>
      do r <- status_of b s ;
      if going (fst r) then do r1 <- build b (snd r) ; build_loop n' (snd (fst r1)) (snd r1)
      else do r1 <- status_of b (snd r) ; Ok (Some (fst r1), b, snd r1)
  end.
End Builders.

(** composite_builder.py:115-140 [flatten] *)
Fixpoint flatten (b : builder) : list builder :=
  b :: match b with Leaf _ => nil | Comp _ subs => flat_map flatten subs end.
