(** Model of the panels of figures in tex: /repo/src/disseminate/tags/figs.py *)
From Coq Require Import List Bool NArith.
From Verif.Base Require Import Str Dict Result.
From Verif.Model Require Import Attributes Formats StringUtils Width.
Import ListNotations.

Section Panel.
(** [float(x)] and the multiplication by 100.0, as in Model/Width.v *)
Variables (to_float : str -> option num) (times100 : num -> num).
(** figs.py:100-109 [Panel.tex_fmt] with the attributes of the tag and the tex of its content *)
Definition panel_tex (d : attrs) (x : str) : result str :=
  do d <- copy d ;
  do d <- tex_percentwidth to_float times100 d (Some (lit ".tex")) true ;
  do e <- tex_env tex_env_arguments tex_env_optionals (lit "panel") d x false None ;
  Ok (strip (strip_multi_newlines e)).
End Panel.
