(** Model of the commands of converters: /repo/src/disseminate/builders/builder.py:22-39, 325-346 and
    424-450, pdf2svg.py, pdfcrop.py, scalesvg.py, pdflatex.py, asy_builders.py:9-18, imagemagick.py and
    validators.py *)
From Coq Require Import List Bool Arith NArith ZArith.
From Verif.Base Require Import Str Result PurePath.
Import ListNotations.

(** The values of options.  A float is given by its text and by whether it is zero. *)
Inductive val := VInt (z : Z) | VText (s : str) | VFloat (zero : bool) (text : str) | VTuple (l : list val).
(** Parameters: files, texts, and pairs of a name and a value *)
Inductive arg := AFile (p : path) | AText (s : str) | APair (name : str) (v : val).

Definition truthy (v : val) : bool :=
  match v with VInt z => negb (Z.eqb z 0) | VText s => negb (eqb s nil) | VFloat zero _ => negb zero | VTuple l => negb (Nat.eqb (length l) 0) end.
(** [str(z)] *)
Definition str_of_Z (z : Z) : str :=
  match z with Z0 => lit "0" | Zpos p => str_of_N (Npos p) | Zneg p => lit "-" ++ str_of_N (Npos p) end.

(** [str.split()] *)
Fixpoint split_ws_from (cur : str) (x : str) : list str :=
  match x with
  | nil => match cur with nil => nil | _ => [rev cur] end
  | c :: r => if is_space c then match cur with nil => split_ws_from nil r | _ => rev cur :: split_ws_from nil r end
              else split_ws_from (c :: cur) r
  end.
Definition split_ws (x : str) : list str := split_ws_from nil x.

(** The actions: texts with fields.  The fields are {builder.infilepaths}, {builder.outfilepath},
    {builder.cache_path} (the directory of the output: pdflatex.py:24-26) and {builder.jobname}
    (pdflatex.py:28-30) *)
Inductive piece := Lit (s : str) | InFiles | OutFile | OutDir | JobName.
(** pdf2svg.py:13 *)
Definition pdf2svg_action : list piece := [Lit (lit "pdf2svg "); InFiles; Lit (lit " "); OutFile].
(** pdfcrop.py:21 *)
Definition pdfcrop_action : list piece := [Lit (lit "pdf-crop-margins -o "); OutFile; Lit (lit " "); InFiles].
(** scalesvg.py:21-22 *)
Definition scalesvg_action : list piece := [Lit (lit "rsvg-convert -f svg -o "); OutFile; Lit (lit " "); InFiles].
(** pdflatex.py:10-15 *)
Definition pdflatex_action : list piece :=
  [Lit (lit "pdflatex -interaction=nonstopmode -halt-on-error -output-directory="); OutDir; Lit (lit " -jobname="); JobName;
   Lit (lit " "); InFiles].
(** asy_builders.py:12 *)
Definition asy_action : list piece := [Lit (lit "asy -safe -f pdf -o "); OutFile; Lit (lit " "); InFiles].
(** imagemagick.py:10 *)
Definition convert_action : list piece := [Lit (lit "convert "); InFiles; Lit (lit " "); OutFile].

Section Commands.
(** pathvalidate.sanitize_filepath, on texts *)
Variable sanitize : str -> str.

(** builder.py:34-39 [clean_field] *)
Definition dashes (c : char) : bool := N.eqb c 45 || N.eqb c 42 || N.eqb c 96.
Definition clean_text (s : str) : str := strip_p dashes s.
Definition clean_path (p : path) : str := clean_text (sanitize (path_str p)).
(** builder.py:26-32 [get_field] *)
Definition field (ins : list path) (out : path) (x : piece) : str :=
  match x with
  | Lit s => s
  | InFiles => join (lit " ") (map clean_path ins)
  | OutFile => clean_path out
  | OutDir => clean_path (path_parent out)
  | JobName => clean_text (path_stem out)
  end.
(** builder.py:424-437 [run_cmd_args] *)
Definition run_cmd_args (action : list piece) (ins : list path) (out : path) : list str :=
  split_ws (flat_map (field ins out) action).

(** builder.py:325-346 [get_parameter] *)
Definition get_parameter (name : str) (ps : list arg) : option val :=
  hd_error (flat_map (fun a => match a with APair n v => if eqb n name then [v] else nil | _ => nil end) ps).
(** [get_parameter(a) or get_parameter(b)], when it is used as a condition *)
Definition get_either (a b : str) (ps : list arg) : option val :=
  match get_parameter a ps with
  | Some v => if truthy v then Some v else get_parameter b ps
  | None => get_parameter b ps
  end.

(** int() of a text (None for a ValueError) and of a float, and the text of float() of a value (None for a
    TypeError or ValueError) *)
Variables (int_text : str -> option Z) (trunc : str -> Z) (float_text : val -> option str).
Definition int_of (v : val) : result Z :=
  match v with
  | VInt z => Ok z
  | VText s => match int_text s with Some z => Ok z | None => Raise ValueError end
  | VFloat _ t => Ok (trunc t)
  | VTuple _ => Raise TypeError
  end.
Fixpoint ints_of (l : list val) : result (list Z) :=
  match l with nil => Ok nil | v :: r => do z <- int_of v ; do zs <- ints_of r ; Ok (z :: zs) end.
(** validators.py:62-88 [validate_tuple] with type=int and raise_error=True *)
Definition validate_tuple (length_ : nat) (v : val) : result (list Z) :=
  match v with
  | VText _ | VInt _ | VFloat _ _ => Raise TypeError
  | VTuple l => if Nat.eqb (length l) length_ then ints_of l else Raise ValueError
  end.

(** One number or four *)
Inductive margins := One (z : Z) | Four (l : list Z).
(** pdfcrop.py:38-45 and 48-54 *)
Definition margins_of (v : option val) : result (option margins) :=
  match v with
  | Some v => if truthy v then match v with VInt z => Ok (Some (One z)) | _ => do l <- validate_tuple 4 v ; Ok (Some (Four l)) end
              else Ok None
  | None => Ok None
  end.

(** [[args[0]] + new + args[1:]] *)
Definition after_first (new args : list str) : list str :=
  match args with nil => nil | a :: r => a :: new ++ r end.
(** pdfcrop.py:33-71: the arguments of [PdfCrop] when it is made with the parameters [ps] *)
Definition pdfcrop (ps : list arg) (ins : list path) (out : path) : result (list str) :=
  do crop <- margins_of (get_either (lit "crop") (lit "crop_percentage") ps) ;
  do offset <- margins_of (get_parameter (lit "offset") ps) ;
  let args := run_cmd_args pdfcrop_action ins out in
  let args := match crop with
              | Some (One z) => after_first [lit "-p"; str_of_Z z] args
              | Some (Four l) => after_first (lit "-p4" :: map str_of_Z l) args
              | None => args
              end in
  Ok (match offset with
      | Some (Four l) => after_first (lit "-a4" :: map str_of_Z l) args
      | _ => args
      end).

(** scalesvg.py:33-48 *)
Definition scalesvg (ps : list arg) (ins : list path) (out : path) : result (list str) :=
  match get_parameter (lit "scale") ps with
  | None => Raise ValueError
  | Some v => match float_text v with
              | Some t => Ok (after_first [lit "-z"; t] (run_cmd_args scalesvg_action ins out))
              | None => Raise ValueError
              end
  end.

(** pdf2svg.py:23-37; a page number is added as a number, not as a text *)
Definition page_of (ps : list arg) : result (option Z) :=
  match get_either (lit "page") (lit "page_no") ps with
  | None => Ok None
  | Some v => match int_of v with Ok z => Ok (Some z) | Raise TypeError => Ok None | Raise x => Raise x end
  end.
Inductive word := Word (s : str) | Number (z : Z).
Definition pdf2svg (ps : list arg) (ins : list path) (out : path) : result (list word) :=
  do page <- page_of ps ;
  Ok (map Word (run_cmd_args pdf2svg_action ins out) ++ match page with Some z => [Number z] | None => nil end).
(** builder.py:439-446 [run_cmd]: the arguments are joined for the log, which fails for numbers *)
Fixpoint started (l : list word) : result (list str) :=
  match l with
  | nil => Ok nil
  | Word s :: r => do t <- started r ; Ok (s :: t)
  | Number _ :: _ => Raise TypeError
  end.

(** pdf2svg.py:40-79 [Pdf2SvgCropScale]: the programs that are run, where [files] are the files between
    the steps (from the input to the output), see Model/Chain.v.  Without parameters, [get_parameter] takes
    the parameters of the builder, which are not set yet. *)
Definition svg_commands (ps : list arg) (files : nat -> path) : result (list (list str)) :=
  match ps with
  | nil => Raise TypeError
  | _ =>
      let crop := match get_parameter (lit "crop") ps with Some v => Some v | None => get_parameter (lit "crop_percentage") ps end in
      do first <- match crop with
                  | Some _ => do c <- pdfcrop ps [files 0] (files 1) ; Ok [c]
                  | None => Ok nil
                  end ;
      let n := length first in
      do second <- (do w <- pdf2svg nil [files n] (files (S n)) ; started w) ;
      do third <- match get_parameter (lit "scale") ps with
                  | Some _ => do c <- scalesvg ps [files (S n)] (files (S (S n))) ; Ok [c]
                  | None => Ok nil
                  end ;
      Ok (first ++ [second] ++ third)
  end.
End Commands.
