(** Model of /repo/src/disseminate/builders/jinja_render.py, of the names of generated files
    (/repo/src/disseminate/builders/utils.py, builder.py) and of the images of equations
    (/repo/src/disseminate/tags/eqs.py, img.py) *)
From Coq Require Import List Bool Arith NArith.
From Verif.Base Require Import Str Dict Sort Result PurePath PyText.
From Verif.Model Require Import ListUtils Hash Paths Attributes Formats.
Import ListNotations.

(** The parameters of a builder: paths, or texts (other objects, like the pairs of attributes, by
    their text: utils_hash.py:45 [str(item)]) *)
Inductive param := PPath (x : xpath) | PText (s : str).
(** pathlib compares paths by their parts *)
Definition param_eqb (a b : param) : bool :=
  match a, b with
  | PPath x, PPath y => eqb (full x) (full y)
  | PText s, PText t => eqb s t
  | _, _ => false
  end.

Section Templates.
(** The jinja2 environment: the file of a template with a name (the loader), and the names that
    [find_referenced_templates] yields for it (None for a name that is computed) *)
Context (file : str -> option path) (refs : str -> list (option str)).

(** jinja2.Environment.get_template; TemplateNotFound is [FileNotFoundError].  A computed name is None,
    which has no method split. *)
Definition get_template (name : option str) : result str :=
  match name with
  | None => Raise AttributeError
  | Some n => match file n with Some _ => Ok n | None => Raise FileNotFoundError end
  end.
Fixpoint get_templates (names : list (option str)) : result (list str) :=
  match names with
  | nil => Ok nil
  | n :: r => do t <- get_template n ; do ts <- get_templates r ; Ok (t :: ts)
  end.

(** jinja_render.py:114-156 [template]: the names that are tried *)
Definition candidates (template render_ext : str) : result (list str) :=
  let template_filepath := of_str template in
  let target := strip_c 46%N render_ext in
  do path1 <- with_suffix (path_join (path_join template_filepath (of_str target)) (of_str (lit "template"))) (lit "." ++ target) ;
  do path2 <- with_suffix template_filepath (lit "." ++ target) ;
  Ok (map path_str [path1; path2; template_filepath]).
(** jinja2.Environment.select_template *)
Fixpoint select_template (names : list str) : result str :=
  match names with
  | nil => Raise FileNotFoundError
  | n :: r => match file n with Some _ => Ok n | None => select_template r end
  end.
Definition template (name render_ext : str) : result str :=
  do c <- candidates name render_ext ; select_template c.

(** jinja_render.py:283-331 [template_filepaths]; [n] is the depth of calls that is possible *)
Fixpoint template_filepaths (n : nat) (name : str) : result (list path) :=
  match n with
  | O => Raise RecursionError
  | S n =>
      match file name with
      | None => Raise FileNotFoundError
      | Some f =>
          do parents <- get_templates (refs name) ;
          (fix go (l : list str) (filenames : list path) : result (list path) :=
             match l with
             | nil => Ok filenames
             | p :: r => do fs <- template_filepaths n p ; go r (filenames ++ fs)
             end) parents [f]
      end
  end.

(** jinja_render.py:334-362 [context_filepaths] *)
Definition context_filepaths (is_file : path -> bool) (fs : list path) : list path :=
  fold_left (fun filepaths f =>
    let c := path_join (path_parent (path_parent f)) (of_str (lit "context.txt")) in
    if is_file c && negb (mem c filepaths) then filepaths ++ [c] else filepaths) fs nil.

(** Template and context files as parameters: [SourcePath(project_root=f.parent, subpath=f.name)] *)
Definition file_param (f : path) : param := PPath (Source (path_parent f) (mkpath false [path_name f])).

(** utils/list.py:8-29 [uniq] for parameters *)
Fixpoint uniq_params (seen : list param) (l : list param) : list param :=
  match l with
  | nil => nil
  | p :: r => if existsb (param_eqb p) seen then uniq_params seen r else p :: uniq_params (p :: seen) r
  end.

(** jinja_render.py:158-188 [parameters]; [own] are the parameters that were given, [scan] is the scanner
    of the environment, [hashes] are those of the tags in the context *)
Definition parameters (depth : nat) (is_file : path -> bool) (scan : list param -> list param)
    (own : list param) (name render_ext : str) (hashes : list str) : result (list param) :=
  do t <- template name render_ext ;
  do fs <- template_filepaths depth t ;
  let ps := own ++ map file_param fs in
  let ps := ps ++ map file_param (context_filepaths is_file fs) in
  let ps := ps ++ scan ps in
  Ok (uniq_params nil (ps ++ map PText (isort str_leb hashes))).
End Templates.

(** ** The names of generated files *)
Section Names.
Variables (digest hexdigest encode : str -> str).

(** utils_hash.py: what is hashed of a parameter *)
Definition param_item (p : param) : item := match p with PPath x => IPath (full x) | PText s => IText s end.

(** utils.py:55-64: the subpath of the first path with one, or that of the source file *)
Fixpoint first_subpath (ps : list param) : option path :=
  match ps with
  | PPath (Source _ s) :: _ | PPath (Target _ _ s) :: _ => Some s
  | _ :: r => first_subpath r
  | nil => None
  end.

(** utils.py:21-90 [generate_mock_parameters] as it is called by builder.py:398 and jinja_render.py:203
    (no project root and subpath given, with a hash); [src] is the subpath of the source file of the context *)
Definition generate_mock_parameters (files : dict path str) (project_root : path) (src : option path) (ext : option str) (ps : list param) : result xpath :=
  do sub <- match (match first_subpath ps with Some s => Some s | None => src end) with
            | Some s => do p <- with_suffix s nil ; Ok (Some p)
            | None => Ok None
            end ;
  do h <- hash_items digest hexdigest encode 4096 true files (map param_item ps) ;
  let name := match sub with Some p => path_name p | None => nil end in
  let filename := of_str (join (lit "_") (filter (fun x => match x with nil => false | _ => true end) [name; firstn 12 h])) in
  do filename <- match ext with Some (c :: e) => with_suffix filename (c :: e) | _ => Ok filename end ;
  source_path project_root (match sub with Some p => path_join (path_parent p) filename | None => filename end).

Record env := mkenv { cache_path : path; target_root : path; media_path : option str; root : path }.

(** builder.py:384-418 [outfilepath] when none is given (the directory is made, which is not modelled) *)
Definition builder_outfilepath (files : dict path str) (e : env) (src : option path) (infilepath_ext target append ext : option str)
    (use_cache use_media : bool) (ps : list param) : result (option xpath) :=
  match flat_map (fun p => match p with PPath x => [x] | PText _ => nil end) ps with
  | x :: r => generate_outfilepath (cache_path e) (target_root e) (media_path e) (x :: r) target append ext use_cache use_media
  | nil =>
      do m <- generate_mock_parameters files (root e) src infilepath_ext ps ;
      generate_outfilepath (cache_path e) (target_root e) (media_path e) [m] target append ext use_cache use_media
  end.
(** jinja_render.py:194-221 [outfilepath] when none is given.  [outfilepath_ext] is None for this class. *)
Definition render_outfilepath (files : dict path str) (e : env) (src : option path) (render_ext target : option str)
    (use_cache use_media : bool) (ps : list param) : result (option xpath) :=
  match ps with
  | nil => Ok None
  | _ =>
      do m <- generate_mock_parameters files (root e) src (Some (lit ".render")) ps ;
      generate_outfilepath (cache_path e) (target_root e) (media_path e) [m] target None render_ext use_cache use_media
  end.
End Names.

(** ** Equations *)
(** An equation: the name of the tag, its content as written and as formatted for tex, its attributes,
    and whether it is a block ([_block_equation] or the role of a paragraph) *)
Record eq_tag := mkeq { eq_name : str; eq_raw : str; eq_content : str; eq_attrs : attrs; eq_is_block : bool }.
(** eqs.py:60-64 [block_equation] *)
Definition block_equation (e : eq_tag) : bool := eq_is_block e || has (lit "env") (eq_attrs e).
(** eqs.py:70-98 [tex_fmt] outside of math mode *)
Definition eq_tex (uw : char -> bool) (pv : str -> ptype) (e : eq_tag) : result str :=
  let a := eq_attrs e in
  let env := match Attributes.get a (RKey (lit "env")) (Some (lit ".tex")) (VStr nil) with
             | VStr (c :: s) => c :: s
             | _ => lit "align*"
             end in
  do content <- match lookup (lit "color") a with
                | Some v => tex_cmd tex_cmd_arguments tex_cmd_optionals (lit "textcolor") (Attributes.load uw pv nil (aval_str v)) (Some (eq_content e)) None
                | None => Ok (eq_content e)
                end ;
  do content <- if has (lit "bold") a || eqb (eq_name e) (lit "termb")
                then tex_cmd tex_cmd_arguments tex_cmd_optionals (lit "boldsymbol") nil (Some content) None else Ok content ;
  let content := Str.strip content in
  if block_equation e then tex_env tex_env_arguments tex_env_optionals env a content true None
  else tex_cmd tex_cmd_arguments tex_cmd_optionals (lit "ensuremath") a (Some content) None.
(** eqs.py:100-128 and img.py:133-138: the parameters of the image for a target *)
Definition totuple_text (kv : str * aval) : str :=
  match snd kv with VPos _ => fst kv | v => lit "('" ++ fst kv ++ lit "', '" ++ aval_str v ++ lit "')" end.
Definition eq_parameters (target : str) (e : eq_tag) : result (list param) :=
  do a <- copy (eq_attrs e) ;
  let a := set (lit "crop") (VObj (lit "(100, 100, 0, 0)")) a in
  let a := set (lit "offset") (VObj (lit "(0, 0, -1, 0)")) a in
  let a := set (lit "class") (VStr (if block_equation e then lit "eq blockeq" else lit "eq")) a in
  do f <- filter_attrs a None (Some target) false true ;
  Ok (PText (eq_content e) :: map (fun kv => PText (totuple_text kv)) f).
