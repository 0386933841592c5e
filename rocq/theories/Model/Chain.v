(** Model of the chaining of the steps of a sequential builder:
    /repo/src/disseminate/builders/composite_builders/sequential_builder.py, with the parameters and
    output paths of /repo/src/disseminate/builders/builder.py *)
From Coq Require Import List Bool Arith NArith.
From Verif.Base Require Import Str Dict Result PurePath.
From Verif.Model Require Import Hash Paths Render.
Import ListNotations.

(** What is used of the attributes of a builder (builder.py:106-134) and of its arguments: [b_id] tells
    builders apart, [src] is the subpath of the source file of its context *)
Record info := mkinfo { b_id : nat; in_ext : option str; append : option str; ext : option str; target : option str;
                        use_cache : bool; use_media : bool; src : option path }.
(** Commands and SaveTempFile; Copy (copy.py); JinjaRender (jinja_render.py) *)
Inductive kind := Command | Copier | Renderer.

(** A builder with its '_parameters' and '_outfilepath'.  [naming] is the place of
    'subbuilder_for_outfilename' in the sub-builders. *)
Inductive node :=
| Step (k : kind) (i : info) (ps : list param) (o : option xpath)
| Seq (i : info) (ps : list param) (o : option xpath) (naming : option nat) (subs : list node).

(** builder.py:299-301 and 420-422, sequential_builder.py:117-119: the setters *)
Definition set_params (ps : list param) (b : node) : node :=
  match b with Step k i _ o => Step k i ps o | Seq i _ o n l => Seq i ps o n l end.
Definition set_out (o : option xpath) (b : node) : node :=
  match b with Step k i ps _ => Step k i ps o | Seq i ps _ n l => Seq i ps o n l end.

(** paths.py:72-103 and 243-277 [use_name] and [use_suffix] *)
Definition subpath (x : xpath) : result path :=
  match x with Plain _ => Raise AttributeError | Source _ s => Ok s | Target _ _ s => Ok s end.
Definition use_name (x : xpath) (name : str) : result xpath :=
  do s <- subpath x ; do s <- with_name s name ; use_subpath x s.
Definition use_suffix (x : xpath) (suffix : str) : result xpath :=
  do s <- subpath x ; do s <- with_suffix s suffix ; use_subpath x s.

(** builder.py:373-382 [infilepaths] and [not_infilepaths] *)
Definition infiles (ps : list param) : list xpath := flat_map (fun p => match p with PPath x => [x] | PText _ => nil end) ps.
Definition options (ps : list param) : list param := flat_map (fun p => match p with PPath _ => nil | PText s => [PText s] end) ps.

Section Chain.
Variables (digest hexdigest encode : str -> str) (files : dict path str) (e : env).
(** What jinja_render.py:158-188 adds to the parameters of a render: the files of its templates, what the
    scanner finds in them, and the hashes of the tags *)
Variable added : info -> list param -> list param.

(** builder.py:289-297 [parameters], without those from signals, and jinja_render.py:158-188 *)
Definition parameters (b : node) : list param :=
  match b with
  | Step Renderer i ps _ => uniq_params nil (ps ++ added i ps)
  | Step _ _ ps _ | Seq _ ps _ _ _ => uniq_params nil ps
  end.

(** builder.py:389-411: the path that is made when none was given *)
Definition default_out (i : info) (ps : list param) : result (option xpath) :=
  builder_outfilepath digest hexdigest encode files e (src i) (in_ext i) (target i) (append i) (ext i) (use_cache i) (use_media i) (uniq_params nil ps).

(** builder.py:384-418, jinja_render.py:194-221 and sequential_builder.py:91-115: the property
    'outfilepath', which keeps what it makes (but for renders) *)
Fixpoint outfile (b : node) : result (option xpath * node) :=
  match b with
  | Step _ _ _ (Some x) => Ok (Some x, b)
  | Step Renderer i _ None =>
      do x <- render_outfilepath digest hexdigest encode files e (src i) (ext i) (target i) (use_cache i) (use_media i)
                (parameters b) ;
      Ok (x, b)
  | Step k i ps None => do x <- default_out i ps ; Ok (x, Step k i ps x)
  | Seq _ _ (Some x) _ _ => Ok (Some x, b)
  | Seq i ps None naming subs =>
      do d <- default_out i ps ;
      do r <- match naming with
              | None => Ok (d, subs)
              | Some n =>
                  do r <- (fix at_nth (n : nat) (l : list node) {struct l} : result (option xpath * list node) :=
                             match l, n with
                             | nil, _ => Raise AttributeError
                             | s :: r, O => do y <- outfile s ; Ok (fst y, snd y :: r)
                             | s :: r, S n => do y <- at_nth n r ; Ok (fst y, s :: snd y)
                             end) n subs ;
                  match d, fst r with
                  | Some x, Some y => do x <- use_name x (path_name (full y)) ; Ok (Some x, snd r)
                  | _, _ => Raise AttributeError
                  end
              end ;
      do x <- match ext i, fst r with
              | None, x => Ok x
              | Some s, Some x => do x <- use_suffix x s ; Ok (Some x)
              | Some _, None => Raise AttributeError
              end ;
      Ok (x, Seq i ps x naming (snd r))
  end.

(** sequential_builder.py:66-79: the loop over the sub-builders *)
Fixpoint chain_loop (current : list param) (subs : list node) : result (list node) :=
  match subs with
  | nil => Ok nil
  | s :: r =>
      let s := set_out None (match current with nil => s | _ => set_params current s end) in
      do y <- outfile s ;
      let current := match fst y with Some x => PPath x :: options (parameters (snd y)) | None => current end in
      do r <- chain_loop current r ;
      Ok (snd y :: r)
  end.

Definition is_copier (b : node) : bool := match b with Step Copier _ _ _ => true | _ => false end.
Fixpoint map_result {A B} (f : A -> result B) (l : list A) : result (list B) :=
  match l with nil => Ok nil | x :: r => do y <- f x ; do r <- map_result f r ; Ok (y :: r) end.

(** sequential_builder.py:81-83: the last sub-builder, if it copies, writes the output of the whole *)
Definition point_copy (b : node) : result node :=
  match b with
  | Step _ _ _ _ => Ok b
  | Seq _ _ _ _ nil => Raise IndexError
  | Seq i ps o naming (s :: r) =>
      if is_copier (last (s :: r) s) then
        do y <- outfile b ;
        match snd y with
        | Seq i ps o naming l => Ok (Seq i ps o naming (removelast l ++ [set_out (fst y) (last l s)]))
        | b => Ok b
        end
      else Ok b
  end.

(** sequential_builder.py:62-89 [chain_subbuilders]; [n] bounds the nesting of the sub-builders *)
Fixpoint chain (n : nat) (b : node) : result node :=
  match b with
  | Step _ _ _ _ => Ok b
  | Seq i ps o naming subs =>
      match n with
      | O => Raise RecursionError
      | S n =>
          do subs <- chain_loop (parameters b) subs ;
          do b <- point_copy (Seq i ps o naming subs) ;
          match b with
          | Seq i ps o naming subs => do subs <- map_result (chain n) subs ; Ok (Seq i ps o naming subs)
          | b => Ok b
          end
      end
  end.
End Chain.
