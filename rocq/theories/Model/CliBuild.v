(** Model of the command that builds projects in /repo/src/disseminate/cli/build.py,
    with /repo/src/disseminate/cli/options.py and
    /repo/src/disseminate/cli/utils/progressbar.py *)
From Coq Require Import List Bool NArith Arith.
From Verif.Base Require Import Str Result.
Import ListNotations.

(** [str.ljust(width, " ")] *)
Definition ljust (s : str) (width : nat) : str := s ++ repeat 32%N (width - length s).
(** progressbar.py:57-62 [SimpleTable.print_row]: the line that is printed *)
Definition table_row (widths : list nat) (values : list str) : str :=
  concat (map (fun vw => ljust (fst vw) (snd vw)) (combine values widths)).
(** progressbar.py:42-55 [SimpleTable.print_hdr]: the lines that are printed *)
Definition table_hdr (widths : list nat) (values : list str) : result (list str) :=
  if Nat.eqb (length widths) (length values)
  then Ok [table_row widths values; table_row widths (map (fun v => repeat 45%N (length v)) values)]
  else Raise AssertionError.

(** progressbar.py:87-88 *)
Definition hdrs : list str := [lit "Environment"; lit "Number Docs"; lit "Done / Total Builds (%)"].
Definition spacing : nat := 2.
(** progressbar.py:90-105 [ProgressTable.__init__]: the widths of columns for the name
    of the environment and the number of documents as texts *)
Definition progress_widths (name ndocs : str) : list nat :=
  [Nat.max (length (nth 0 hdrs nil)) (length name) + spacing;
   Nat.max (length (nth 1 hdrs nil)) (length ndocs) + spacing;
   length (nth 2 hdrs nil) + spacing].
(** progressbar.py:6-19 [progress_builders] for the statuses of the builders *)
Definition progress_builders (statuses : list str) : nat * nat :=
  (length (filter (eqb (lit "done")) statuses), length statuses).
(** progressbar.py:110-116 [ProgressTable.print_row]; [percent] is the text of the
    percentage ("{:.1f}%", floats are not modelled).  A division by zero is OtherError. *)
Definition progress_row (percent : nat -> nat -> str) (name ndocs : str) (statuses : list str) : result str :=
  let '(done, total) := progress_builders statuses in
  if Nat.eqb total 0 then Raise OtherError
  else Ok (table_row (progress_widths name ndocs)
             [name; ndocs; str_of_nat done ++ lit " / " ++ str_of_nat total ++ lit " (" ++ percent done total ++ lit ")"]).

Section Build.
(** The state of a root builder: its status, one call of build(complete=False),
    which gives a status too, and the statuses of the builders of its first flat list *)
Variable state : Type.
Variable status : state -> str.
Variable build_once : state -> state * str.
Variable statuses : state -> list str.
Variable percent : nat -> nat -> str.
(** environment.py:104-109 and progressbar.py:90-98: the name of an environment, the text
    of the number of its documents, and its root builder *)
Record env := { e_name : str; e_ndocs : str; e_builder : state }.

(** What the command does: calls of build, and lines *)
Inductive act := Built | Line (s : str).
(** Statuses with which the loop goes on *)
Definition going (s : str) : bool := eqb s (lit "ready") || eqb s (lit "building").
Definition row_acts (progress : bool) (e : env) (b : state) : result (list act) :=
  if progress then do r <- progress_row percent (e_name e) (e_ndocs e) (statuses b) ; Ok [Line r] else Ok nil.
(** build.py:37-43; none if the loop goes on after [fuel] rounds *)
Fixpoint build_loop (fuel : nat) (progress : bool) (e : env) (b : state) (s : str) : option (result (list act)) :=
  if going s then
    match fuel with
    | O => None
    | S fuel =>
        let '(b, s) := build_once b in
        match row_acts progress e b with
        | Raise x => Some (Raise x)
        | Ok l =>
            match build_loop fuel progress e b s with
            | Some (Ok r) => Some (Ok (Built :: l ++ r))
            | x => x
            end
        end
    end
  else Some (Ok [Line (lit "Build: " ++ status b)]).
(** build.py:29-43 for an environment *)
Definition build_env (fuel : nat) (progress : bool) (e : env) : option (result (list act)) :=
  let b := e_builder e in
  let start :=
    if progress then
      do h <- table_hdr (progress_widths (e_name e) (e_ndocs e)) hdrs ;
      do r <- row_acts progress e b ; Ok (map Line h ++ r)
    else Ok nil in
  match start with
  | Raise x => Some (Raise x)
  | Ok l =>
      match build_loop fuel progress e b (status b) with
      | Some (Ok r) => Some (Ok (l ++ r))
      | x => x
      end
  end.
Fixpoint build_envs (fuel : nat) (progress : bool) (es : list env) : option (result (list act)) :=
  match es with
  | nil => Some (Ok nil)
  | e :: r =>
      match build_env fuel progress e with
      | Some (Ok l) => match build_envs fuel progress r with Some (Ok m) => Some (Ok (l ++ m)) | x => x end
      | x => x
      end
  end.
(** options.py:38-48 [check_out_dir] (click.BadParameter is OtherError) and
    build.py:20-43 [build]; [out_dir] says that an output directory is given *)
Definition check_out_dir (es : list env) (out_dir : bool) : result unit :=
  if Nat.ltb 1 (length es) && out_dir then Raise OtherError else Ok tt.
Definition cli_build (fuel : nat) (out_dir progress : bool) (es : list env) : option (result (list act)) :=
  match check_out_dir es out_dir with
  | Raise x => Some (Raise x)
  | Ok _ => build_envs fuel progress es
  end.
End Build.
