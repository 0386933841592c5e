(** Model of delimited data and tables: /repo/src/disseminate/tags/data.py,
    /repo/src/disseminate/tags/table.py *)
From Coq Require Import List Bool Arith NArith.
From Verif.Base Require Import Str Dict Result PyText.
From Verif.Model Require Import ListUtils.
Import ListNotations.

(** ** Python's csv.reader, as used by data.py:150-158: the excel dialect with
    skipinitialspace.  Simplification: fields have no size limit; as in Python
    3.8, a NUL character is an error. *)
Inductive cstate := StartRecord | StartField | InField | InQuoted | QuoteInQuoted | EatCrnl.
(** the state, the current field and the fields of the row *)
Definition cursor : Type := cstate * str * list str.
Definition fresh : cursor := (StartRecord, [], []).
Definition is_crnl (c : char) : bool := N.eqb c 10 || N.eqb c 13.
(** A character or, None, the end of a line *)
Definition csv_step (d : char) (s : cursor) (c : option char) : result cursor :=
  let '(st, field, fields) := s in
  let save st' := Ok (st', [], fields ++ [field]) in
  let add st' c := Ok (st', field ++ [c], fields) in
  let start_field (c : option char) :=
    match c with
    | None => save StartRecord
    | Some c => if is_crnl c then save EatCrnl
                else if N.eqb c 34 then Ok (InQuoted, field, fields)
                else if N.eqb c 32 then Ok (StartField, field, fields)
                else if N.eqb c d then save StartField
                else add InField c
    end in
  if eqb c (Some 0%N) then Raise OtherError else
  match st with
  | StartRecord =>
      match c with
      | None => Ok (StartRecord, field, fields)
      | Some x => if is_crnl x then Ok (EatCrnl, field, fields) else start_field c
      end
  | StartField => start_field c
  | InField =>
      match c with
      | None => save StartRecord
      | Some c => if is_crnl c then save EatCrnl
                  else if N.eqb c d then save StartField
                  else add InField c
      end
  | InQuoted =>
      match c with
      | None => Ok s
      | Some c => if N.eqb c 34 then Ok (QuoteInQuoted, field, fields) else add InQuoted c
      end
  | QuoteInQuoted =>
      match c with
      | None => save StartRecord
      | Some c => if N.eqb c 34 then add InQuoted c
                  else if N.eqb c d then save StartField
                  else if is_crnl c then save EatCrnl
                  else add InField c
      end
  | EatCrnl =>
      match c with
      | None => Ok (StartRecord, field, fields)
      | Some c => if is_crnl c then Ok s else Raise OtherError
      end
  end.
Fixpoint feed (d : char) (s : cursor) (line : str) : result cursor :=
  match line with
  | nil => Ok s
  | c :: r => do s' <- csv_step d s (Some c) ; feed d s' r
  end.
Definition at_start (s : cursor) : bool := match fst (fst s) with StartRecord => true | _ => false end.
(** The rows of a reader over lines; a row goes on over lines in quotes, and ends
    with the text.  [s]: where the row is. *)
Fixpoint read_rows (d : char) (s : cursor) (lines : list str) : result (list (list str)) :=
  match lines with
  | nil => Ok (if at_start s then [] else [snd s ++ [snd (fst s)]])
  | l :: r =>
      do s1 <- feed d s l ;
      do s2 <- csv_step d s1 None ;
      if at_start s2 then do rest <- read_rows d fresh r ; Ok (snd s2 :: rest)
      else read_rows d s2 r
  end.
(** The lines of a StringIO, with their newline *)
Fixpoint stream_lines (cur x : str) : list str :=
  match x with
  | nil => match cur with nil => nil | _ => [cur] end
  | c :: r => if N.eqb c 10 then (cur ++ [c]) :: stream_lines nil r else stream_lines (cur ++ [c]) r
  end.
Definition csv_reader (d : char) (x : str) : result (list (list str)) := read_rows d fresh (stream_lines nil x).

(** The names of columns: the text of a header, or a number *)
Inductive colname := Named (x : str) | Numbered (n : nat).
Definition colname_eqb (a b : colname) : bool :=
  match a, b with Named x, Named y => eqb x y | Numbered n, Numbered m => Nat.eqb n m | _, _ => false end.
#[global] Instance EqDec_colname : EqDec colname.
Proof.
  refine {| eqb := colname_eqb |}. intros [x|n] [y|m]; cbn; try (constructor; discriminate).
  - destruct (eqb_spec x y); constructor; congruence.
  - destruct (Nat.eqb_spec n m); constructor; congruence.
Defined.
Definition data : Type := dict colname (list str).
Fixpoint from_columns (i : nat) (noheader : bool) (l : list (str * list str)) (d : data) : data :=
  match l with
  | nil => d
  | (first, col) :: r =>
      from_columns (S i) noheader r (if noheader then set (Numbered i) (first :: col) d else set (Named first) col d)
  end.
(** data.py:145-179 [DelimData.load] of a text that is no path.  A text without
    rows raises StopIteration. *)
Definition load (d : char) (noheader : bool) (x : str) : result data :=
  do rows <- csv_reader d x ;
  match rows with
  | nil => Raise OtherError
  | first :: rows => Ok (from_columns 0 noheader (combine first (transpose rows)) [])
  end.
(** data.py:102-116 *)
Definition headers (t : data) : list colname := keys t.
Definition data_rows (t : data) : list (list str) := transpose (map snd t).
(** data.py:80-100, 206-240 [html_table]: the cells of the head, if there is one, and
    of the rows of the body.  The elements and the formats of the cells are not
    modelled. *)
Definition html_table (noheader : bool) (t : data) : option (list colname) * list (list str) :=
  (if noheader then None else Some (headers t), data_rows t).

(** data.py:22-25, 34-37 [Cell.tex_fmt], [HeaderCell.tex_fmt]: the text of the
    cell with its ampersands replaced *)
Definition cell_tex (x : str) : str := flat_map (fun c => if N.eqb c 38 then [92%N; 38%N] else [c]) x.
Definition row_tex (cells : list str) : str := join (lit " & ") (map cell_tex cells) ++ lit " \\" ++ [10%N].
(** data.py:181-204 [tex_table] with the formatted cells *)
Definition tex_table (hdrs : option (list str)) (rows : list (list str)) : str :=
  lit "\toprule" ++ [10%N] ++
  match hdrs with Some h => row_tex h ++ lit "\midrule" ++ [10%N] | None => [] end ++
  flat_map row_tex rows ++ lit "\bottomrule".
(** table.py:57 the column types *)
Definition col_types (t : data) : str := repeat 108%N (length t).
