(** Model of the width functions in /repo/src/disseminate/tags/utils.py *)
From Coq Require Import List Bool NArith ZArith QArith Qround.
From Verif.Base Require Import Str Dict Result.
From Verif.Model Require Import Attributes.
Import ListNotations.

(** A float: a rational number, an infinity or nan. *)
Inductive num := Fin (q : Q) | Inf | NaN.

Section Width.
(** [float(x)] (None: ValueError) and the multiplication of floats by 100.0 *)
Variables (to_float : str -> option num) (times100 : num -> num).

(** utils.py:149-191 [percentage] for a string.  None is None; the infinity is
    an OverflowError of ceil, which is not caught. *)
Definition ceil_abs (v : option num) : result (option Z) :=
  match v with
  | Some (Fin q) => Ok (Some (Z.abs (Qceiling q)))
  | Some Inf => Raise OtherError
  | Some NaN | None => Ok None
  end.
Definition percentage (x : str) : result (option Z) :=
  if mem 37%N x then ceil_abs (to_float (strip_c 37%N (strip x)))
  else ceil_abs (match to_float (strip x) with Some v => Some (times100 v) | None => None end).
(** The width of an attribute: strings as above.  Positional values (classes)
    give a TypeError in ceil, which is caught.  Other values are not modelled
    (the attributes of a text are strings or positional). *)
Definition value_percentage (v : aval) : result (option Z) :=
  match v with VStr x => percentage x | _ => Ok None end.

(** utils.py:306-318: the windows, and the first that fits *)
Definition windows : list (str * (Z * Z)) :=
  [(lit "w100", (75, 100)); (lit "w75", (67, 75)); (lit "w66", (50, 67));
   (lit "w50", (34, 50)); (lit "w33", (25, 33)); (lit "w25", (0, 25))]%Z.
Fixpoint find_window {A} (ws : list (A * (Z * Z))) (p : Z) : option A :=
  match ws with
  | nil => None
  | (c, (lo, hi)) :: r => if (lo <? p)%Z && (p <=? hi)%Z then Some c else find_window r p
  end.

(** utils.py:267-320 [xhtml_percentwidth].  The value of class must be a string
    (TypeError when it is positional). *)
Definition xhtml_percentwidth (d : attrs) (target : option str) : result attrs :=
  match find_item d (RKey (lit "width")) target with
  | None => Ok d
  | Some _ =>
      do p <- value_percentage (get d (RKey (lit "width")) target (VStr nil)) ;
      match p with
      | None => Ok d
      | Some p =>
          match find_window windows p with
          | None => Ok d
          | Some c =>
              match lookup (lit "class") d with
              | None => Ok (set (lit "class") (VStr c) d)
              | Some (VStr x) => Ok (set (lit "class") (VStr (x ++ lit " " ++ c)) d)
              | Some _ => Raise TypeError
              end
          end
      end
  end.

(** utils.py:236-248: the windows of tex_percentwidth with the text
    '{}\textwidth'.format(w / 100.) for each; the loop goes on after a match,
    and takes the last one *)
Definition tex_windows : list (str * (Z * Z)) :=
  [(lit "0.99\textwidth", (75, 100)); (lit "0.74\textwidth", (67, 75)); (lit "0.65\textwidth", (50, 67));
   (lit "0.49\textwidth", (34, 50)); (lit "0.32\textwidth", (25, 33)); (lit "0.24\textwidth", (0, 25))]%Z.
Definition last_window {A} (ws : list (A * (Z * Z))) (p : Z) : option A := find_window (rev ws) p.

(** utils.py:194-264 [tex_percentwidth] *)
Definition tex_percentwidth (d : attrs) (target : option str) (use_positional : bool) : result attrs :=
  match find_item d (RKey (lit "width")) target with
  | None => Ok d
  | Some _ =>
      let width := get d (RKey (lit "width")) target (VStr nil) in
      do p <- value_percentage width ;
      let text := match (match p with Some p => last_window tex_windows p | None => None end) with
                  | Some t => t
                  | None => aval_str width
                  end in
      Ok (if use_positional then set text (VPos PStr) d else set (lit "width") (VStr text) d)
  end.
End Width.
