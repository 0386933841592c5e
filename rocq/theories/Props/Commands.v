(** C66: the command lines of converters *)
From Coq Require Import List Bool Arith NArith ZArith Lia.
From Verif.Base Require Import Str StrFacts Result PurePath.
From Verif.Model Require Import Commands.
From Verif.Spec Require Import Commands.
From Verif.Props Require AutoLabels.
Import ListNotations.

(** ** Splitting *)
Lemma split_from_app w cur r :
  (forall c, In c w -> is_space c = false) -> split_ws_from cur (w ++ r) = split_ws_from (rev w ++ cur) r.
Proof.
  revert cur. induction w as [|c w IH]; intros cur H; [reflexivity|].
  cbn [app split_ws_from]. rewrite (H c (or_introl eq_refl)).
  rewrite IH by (intros x Hx; apply H; now right). cbn [rev]. now rewrite <- app_assoc.
Qed.
Lemma split_ws_sp c r : is_space c = true -> split_ws (c :: r) = split_ws r.
Proof. intro H. unfold split_ws. cbn [split_ws_from]. now rewrite H. Qed.
Lemma split_ws_word w : one_word w -> split_ws w = [w].
Proof.
  intros [N H]. unfold split_ws. rewrite <- (app_nil_r w) at 1. rewrite split_from_app by exact H.
  rewrite app_nil_r. cbn [split_ws_from]. destruct (rev w) as [|x l] eqn:E.
  - exfalso. apply N. rewrite <- (rev_involutive w), E. reflexivity.
  - rewrite <- E, rev_involutive. reflexivity.
Qed.
Lemma split_ws_cons w c r : one_word w -> is_space c = true -> split_ws (w ++ c :: r) = w :: split_ws r.
Proof.
  intros [N H] S. unfold split_ws. rewrite split_from_app by exact H. rewrite app_nil_r.
  cbn [split_ws_from]. rewrite S. destruct (rev w) as [|x l] eqn:E.
  - exfalso. apply N. rewrite <- (rev_involutive w), E. reflexivity.
  - rewrite <- E, rev_involutive. reflexivity.
Qed.
Lemma sp_space : is_space 32%N = true. Proof. reflexivity. Qed.
Lemma split_ws_join ws r :
  Forall one_word ws -> split_ws (join (lit " ") ws ++ 32%N :: r) = ws ++ split_ws r.
Proof.
  induction 1 as [|w ws Hw Hws IH]; [apply split_ws_sp; reflexivity|].
  destruct ws as [|w' ws].
  - cbn [join app]. now rewrite (split_ws_cons w 32%N r Hw sp_space).
  - rewrite join_cons by discriminate. rewrite <- !app_assoc.
    change (lit " " ++ join (lit " ") (w' :: ws) ++ 32%N :: r) with (32%N :: join (lit " ") (w' :: ws) ++ 32%N :: r).
    rewrite split_ws_cons by (exact Hw || reflexivity). rewrite IH. reflexivity.
Qed.
Lemma split_ws_join_end ws : Forall one_word ws -> split_ws (join (lit " ") ws) = ws.
Proof.
  induction 1 as [|w ws Hw Hws IH]; [reflexivity|].
  destruct ws as [|w' ws].
  - cbn [join]. now apply split_ws_word.
  - rewrite join_cons by discriminate.
    change (w ++ lit " " ++ join (lit " ") (w' :: ws)) with (w ++ 32%N :: join (lit " ") (w' :: ws)).
    rewrite split_ws_cons by (exact Hw || reflexivity). now rewrite IH.
Qed.

(** ** Plain texts are not changed *)
Lemma dashes_iff c : dashes c = true <-> In c (lit "-*`").
Proof.
  unfold dashes. change (lit "-*`") with [45%N; 42%N; 96%N]. cbn [In].
  rewrite !orb_true_iff, !N.eqb_eq. intuition congruence.
Qed.
Lemma clean_plain s : plain_text s -> clean_text s = s.
Proof.
  intros (_ & A & B). unfold clean_text.
  apply strip_p_id. split.
  - intros c r E. specialize (A c r E). destruct (dashes c) eqn:D; [|reflexivity]. exfalso. apply A. now apply dashes_iff.
  - intros c r E. specialize (B c r E). destruct (dashes c) eqn:D; [|reflexivity]. exfalso. apply B. now apply dashes_iff.
Qed.
Lemma plain_clean sanitize p : plain_path sanitize p -> clean_path sanitize p = path_str p.
Proof. intros [E H]. unfold clean_path. rewrite E. now apply clean_plain. Qed.
Lemma plain_cleans sanitize l : Forall (plain_path sanitize) l -> map (clean_path sanitize) l = map path_str l.
Proof. induction 1 as [|p l H _ IH]; [reflexivity|]. cbn [map]. now rewrite (plain_clean _ _ H), IH. Qed.
Lemma plain_words sanitize l : Forall (plain_path sanitize) l -> Forall one_word (map path_str l).
Proof. induction 1 as [|p l [_ [H _]] _ IH]; constructor; assumption. Qed.

(** ** The arguments of a command: when paths have no white space and no dash, star or back quote at their
    ends, then the program gets its fixed options and the files, each as one argument *)
Section Plain.
Variables (sanitize : str -> str) (ins : list path) (out : path).
Hypotheses (Hins : Forall (plain_path sanitize) ins) (Hout : plain_path sanitize out).
Let Wins : Forall one_word (map path_str ins) := plain_words sanitize ins Hins.
Let Wout : one_word (path_str out) := proj1 (proj2 Hout).

Theorem C66_pdf2svg_partial :
  run_cmd_args sanitize pdf2svg_action ins out = lit "pdf2svg" :: map path_str ins ++ [path_str out].
Proof.
  unfold run_cmd_args. cbn [flat_map pdf2svg_action field]. rewrite app_nil_r.
  rewrite (plain_cleans _ _ Hins), (plain_clean _ _ Hout).
  change (lit "pdf2svg" :: split_ws (join (lit " ") (map path_str ins) ++ 32%N :: path_str out)
          = lit "pdf2svg" :: map path_str ins ++ [path_str out]).
  now rewrite split_ws_join, (split_ws_word _ Wout) by exact Wins.
Qed.
Theorem C66_convert_partial :
  run_cmd_args sanitize convert_action ins out = lit "convert" :: map path_str ins ++ [path_str out].
Proof.
  unfold run_cmd_args. cbn [flat_map convert_action field]. rewrite app_nil_r.
  rewrite (plain_cleans _ _ Hins), (plain_clean _ _ Hout).
  change (lit "convert" :: split_ws (join (lit " ") (map path_str ins) ++ 32%N :: path_str out)
          = lit "convert" :: map path_str ins ++ [path_str out]).
  now rewrite split_ws_join, (split_ws_word _ Wout) by exact Wins.
Qed.
Theorem C66_pdfcrop_partial :
  run_cmd_args sanitize pdfcrop_action ins out = [lit "pdf-crop-margins"; lit "-o"; path_str out] ++ map path_str ins.
Proof.
  unfold run_cmd_args. cbn [flat_map pdfcrop_action field]. rewrite app_nil_r.
  rewrite (plain_cleans _ _ Hins), (plain_clean _ _ Hout).
  change (lit "pdf-crop-margins" :: lit "-o" :: split_ws (path_str out ++ 32%N :: join (lit " ") (map path_str ins))
          = lit "pdf-crop-margins" :: lit "-o" :: path_str out :: map path_str ins).
  now rewrite (split_ws_cons _ _ _ Wout sp_space), (split_ws_join_end _ Wins).
Qed.
Theorem C66_scalesvg_partial :
  run_cmd_args sanitize scalesvg_action ins out
  = [lit "rsvg-convert"; lit "-f"; lit "svg"; lit "-o"; path_str out] ++ map path_str ins.
Proof.
  unfold run_cmd_args. cbn [flat_map scalesvg_action field]. rewrite app_nil_r.
  rewrite (plain_cleans _ _ Hins), (plain_clean _ _ Hout).
  change (lit "rsvg-convert" :: lit "-f" :: lit "svg" :: lit "-o" :: split_ws (path_str out ++ 32%N :: join (lit " ") (map path_str ins))
          = lit "rsvg-convert" :: lit "-f" :: lit "svg" :: lit "-o" :: path_str out :: map path_str ins).
  now rewrite (split_ws_cons _ _ _ Wout sp_space), (split_ws_join_end _ Wins).
Qed.
Theorem C66_asy_partial :
  run_cmd_args sanitize asy_action ins out
  = [lit "asy"; lit "-safe"; lit "-f"; lit "pdf"; lit "-o"; path_str out] ++ map path_str ins.
Proof.
  unfold run_cmd_args. cbn [flat_map asy_action field]. rewrite app_nil_r.
  rewrite (plain_cleans _ _ Hins), (plain_clean _ _ Hout).
  change (lit "asy" :: lit "-safe" :: lit "-f" :: lit "pdf" :: lit "-o" :: split_ws (path_str out ++ 32%N :: join (lit " ") (map path_str ins))
          = lit "asy" :: lit "-safe" :: lit "-f" :: lit "pdf" :: lit "-o" :: path_str out :: map path_str ins).
  now rewrite (split_ws_cons _ _ _ Wout sp_space), (split_ws_join_end _ Wins).
Qed.
Theorem C66_pdflatex_partial :
  plain_path sanitize (path_parent out) -> plain_text (path_stem out) ->
  run_cmd_args sanitize pdflatex_action ins out
  = [lit "pdflatex"; lit "-interaction=nonstopmode"; lit "-halt-on-error";
     lit "-output-directory=" ++ path_str (path_parent out); lit "-jobname=" ++ path_stem out] ++ map path_str ins.
Proof.
  intros Hd Hs. unfold run_cmd_args. cbn [flat_map pdflatex_action field]. rewrite app_nil_r.
  rewrite (plain_cleans _ _ Hins), (plain_clean _ _ Hd), (clean_plain _ Hs).
  assert (W : forall a b, one_word b -> (forall c, In c a -> is_space c = false) -> one_word (a ++ b)).
  { intros a b [N B] A. split; [now intros [_ E]%app_eq_nil|].
    intros c [H|H]%in_app_or; [now apply A | now apply B]. }
  assert (L : forall c, In c (lit "-output-directory=") -> is_space c = false)
    by (apply Forall_forall; repeat constructor).
  assert (J : forall c, In c (lit "-jobname=") -> is_space c = false)
    by (apply Forall_forall; repeat constructor).
  change (lit "pdflatex" :: lit "-interaction=nonstopmode" :: lit "-halt-on-error" ::
          split_ws ((lit "-output-directory=" ++ path_str (path_parent out)) ++ 32%N ::
                    lit "-jobname=" ++ path_stem out ++ 32%N :: join (lit " ") (map path_str ins))
          = lit "pdflatex" :: lit "-interaction=nonstopmode" :: lit "-halt-on-error" ::
            (lit "-output-directory=" ++ path_str (path_parent out)) :: (lit "-jobname=" ++ path_stem out) :: map path_str ins).
  rewrite split_ws_cons by (reflexivity || (apply W; [exact (proj1 (proj2 Hd)) | exact L])).
  rewrite (app_assoc (lit "-jobname=")).
  rewrite split_ws_cons by (reflexivity || (apply W; [exact (proj1 Hs) | exact J])).
  now rewrite (split_ws_join_end _ Wins).
Qed.
End Plain.

(** Whatever the names of files are, the program and its fixed options are those of the action *)
Theorem C66_program sanitize ins out :
  (exists r, run_cmd_args sanitize pdf2svg_action ins out = lit "pdf2svg" :: r) /\
  (exists r, run_cmd_args sanitize convert_action ins out = lit "convert" :: r) /\
  (exists r, run_cmd_args sanitize pdfcrop_action ins out = lit "pdf-crop-margins" :: lit "-o" :: r) /\
  (exists r, run_cmd_args sanitize scalesvg_action ins out = lit "rsvg-convert" :: lit "-f" :: lit "svg" :: lit "-o" :: r) /\
  (exists r, run_cmd_args sanitize asy_action ins out = lit "asy" :: lit "-safe" :: lit "-f" :: lit "pdf" :: lit "-o" :: r) /\
  (exists r, run_cmd_args sanitize pdflatex_action ins out
             = lit "pdflatex" :: lit "-interaction=nonstopmode" :: lit "-halt-on-error" :: r).
Proof.
  unfold run_cmd_args. cbn [flat_map pdf2svg_action convert_action pdfcrop_action scalesvg_action asy_action pdflatex_action field].
  assert (G : forall l ws, (forall x, split_ws (l ++ x) = ws ++ split_ws x) -> forall x, exists r, split_ws (l ++ x) = ws ++ r)
    by (intros l ws H x; exists (split_ws x); apply H).
  repeat split.
  - apply (G _ [lit "pdf2svg"]). reflexivity.
  - apply (G _ [lit "convert"]). reflexivity.
  - apply (G _ [lit "pdf-crop-margins"; lit "-o"]). reflexivity.
  - apply (G _ [lit "rsvg-convert"; lit "-f"; lit "svg"; lit "-o"]). reflexivity.
  - apply (G _ [lit "asy"; lit "-safe"; lit "-f"; lit "pdf"; lit "-o"]). reflexivity.
  - eexists. exact (eq_refl (lit "pdflatex" :: lit "-interaction=nonstopmode" :: lit "-halt-on-error" :: split_ws (lit "-output-directory=" ++ _))).
Qed.

(** Names without white space are not taken as options *)
Lemma in_strip {A} (f : A -> bool) l x : In x (strip_p f l) -> In x l.
Proof.
  destruct (strip_p_decomp f l) as (p & q & E & _). intro H. rewrite E. apply in_or_app. right. apply in_or_app. now left.
Qed.
Lemma split_ws_word' w : (forall c, In c w -> is_space c = false) -> split_ws w = match w with nil => nil | _ => [w] end.
Proof. intro H. destruct w as [|c w]; [reflexivity|]. apply split_ws_word. split; [discriminate | exact H]. Qed.
Lemma split_ws_cons' w c r :
  (forall x, In x w -> is_space x = false) -> is_space c = true ->
  split_ws (w ++ c :: r) = match w with nil => nil | _ => [w] end ++ split_ws r.
Proof.
  intros H S. destruct w as [|x w]; [now apply split_ws_sp|].
  apply split_ws_cons; [split; [discriminate | exact H] | exact S].
Qed.
Lemma split_ws_join' ws r :
  (forall w x, In w ws -> In x w -> is_space x = false) ->
  split_ws (join (lit " ") ws ++ 32%N :: r) = filter (fun w => negb (eqb w nil)) ws ++ split_ws r.
Proof.
  induction ws as [|w ws IH]; intros H; [apply split_ws_sp; reflexivity|].
  assert (Hw : forall x, In x w -> is_space x = false) by (intro x; apply (H w x); now left).
  assert (Hs : forall v x, In v ws -> In x v -> is_space x = false) by (intros v x Hv; apply H; now right).
  assert (F : forall t, filter (fun w => negb (eqb w nil)) (w :: ws) ++ t
              = match w with nil => nil | _ => [w] end ++ filter (fun w => negb (eqb w nil)) ws ++ t)
    by (intro t; destruct w; reflexivity).
  rewrite F. destruct ws as [|w' ws].
  - cbn [join filter app]. now apply split_ws_cons'.
  - rewrite join_cons by discriminate. rewrite <- !app_assoc.
    change (lit " " ++ join (lit " ") (w' :: ws) ++ 32%N :: r) with (32%N :: join (lit " ") (w' :: ws) ++ 32%N :: r).
    rewrite split_ws_cons' by (exact Hw || reflexivity). now rewrite (IH Hs).
Qed.
Theorem C66_no_option sanitize ins out a :
  (forall p c, In p (out :: ins) -> In c (sanitize (path_str p)) -> is_space c = false) ->
  In a (tl (run_cmd_args sanitize pdf2svg_action ins out)) -> forall r, a <> 45%N :: r.
Proof.
  intros H Ha r ->.
  assert (G : forall p r, clean_path sanitize p <> 45%N :: r).
  { intros p t E. destruct (strip_p_decomp dashes (sanitize (path_str p))) as (_ & _ & _ & _ & _ & [S _]).
    specialize (S 45%N t E). discriminate S. }
  assert (C : forall p c, In p (out :: ins) -> In c (clean_path sanitize p) -> is_space c = false).
  { intros p c Hp Hc. apply (H p c Hp). exact (in_strip _ _ _ Hc). }
  revert Ha. unfold run_cmd_args. cbn [flat_map pdf2svg_action field]. rewrite app_nil_r.
  change (In (45%N :: r) (split_ws (join (lit " ") (map (clean_path sanitize) ins) ++ 32%N :: clean_path sanitize out)) -> False).
  rewrite split_ws_join'.
  2:{ intros w x Hw Hx. apply in_map_iff in Hw as (p & <- & Hp). apply (C p x); [now right | exact Hx]. }
  rewrite split_ws_word' by (intro x; apply (C out x); now left).
  intros [I|I]%in_app_or.
  - apply filter_In in I as [I _]. apply in_map_iff in I as (p & E & _). exact (G p r E).
  - destruct (clean_path sanitize out) as [|c t] eqn:E; [destruct I|]. destruct I as [I|[]].
    apply (G out r). now rewrite E.
Qed.

(** A file is not always one argument: its name may have spaces, and the parts may be taken as options *)
Theorem C66_space_refuted :
  ~ (forall p out, In (path_str p) (run_cmd_args (fun s => s) pdf2svg_action [p] out)).
Proof.
  intro H. specialize (H (of_str (lit "my fig.pdf")) (of_str (lit "fig.svg"))).
  vm_compute in H. repeat destruct H as [H|H]; try discriminate H. exact H.
Qed.
Theorem C66_injection_refuted :
  ~ (forall p out a, In a (tl (run_cmd_args (fun s => s) convert_action [p] out)) -> forall r, a <> 45%N :: r).
Proof.
  intro H. apply (H (of_str (lit "fig -crop.png")) (of_str (lit "fig.png")) (lit "-crop.png")) with (r := lit "crop.png"); [|reflexivity].
  right. left. reflexivity.
Qed.
(** The directory of the output is not always that of the file: its name may end with a dash *)
Theorem C66_dash_refuted :
  ~ (forall p out, (forall c, In c (path_str out) -> is_space c = false) ->
     In (lit "-output-directory=" ++ path_str (path_parent out)) (run_cmd_args (fun s => s) pdflatex_action [p] out)).
Proof.
  intro H. specialize (H (of_str (lit "a.tex")) (of_str (lit "/draft-/a.pdf"))).
  assert (A : forall c, In c (path_str (of_str (lit "/draft-/a.pdf"))) -> is_space c = false)
    by (intros c Hc; vm_compute in Hc; repeat (destruct Hc as [<-|Hc]; [reflexivity|]); destruct Hc).
  specialize (H A). vm_compute in H. repeat destruct H as [H|H]; try discriminate H. exact H.
Qed.

(** Numbers are written so that they are read as the same *)
Lemma digits_ge f : forall n acc, (forall c, In c acc -> (48 <= c)%N) -> forall c, In c (digits_aux f n acc) -> (48 <= c)%N.
Proof.
  induction f as [|f IH]; intros n acc H c Hc; cbn [digits_aux] in Hc; [now apply H|].
  assert (G : forall x, In x ((48 + n mod 10)%N :: acc) -> (48 <= x)%N) by (intros x [<-|Hx]; [apply N.le_add_r | now apply H]).
  destruct (N.ltb n 10); [now apply G | exact (IH _ _ G c Hc)].
Qed.
Theorem C66_number z : number_of (str_of_Z z) = z.
Proof.
  destruct z as [|p|p]; [reflexivity| |].
  - cbn [str_of_Z]. pose proof (AutoLabels.read_str (Npos p)) as R. unfold number_of.
    assert (G : forall c, In c (str_of_N (Npos p)) -> (48 <= c)%N) by (unfold str_of_N; apply digits_ge; intros c []).
    destruct (str_of_N (Npos p)) as [|c r] eqn:E; [discriminate R|].
    destruct (N.eqb_spec c 45) as [->|_]; [specialize (G 45%N (or_introl eq_refl)); lia|].
    change (Z.of_N (AutoLabels.read (c :: r)) = Zpos p). rewrite R. reflexivity.
  - change (number_of (str_of_Z (Zneg p))) with (- Z.of_N (AutoLabels.read (str_of_N (Npos p))))%Z.
    rewrite AutoLabels.read_str. reflexivity.
Qed.

(** ** Options *)
Lemma get_of name v ps : option_is name v ps -> get_parameter name ps = Some v.
Proof.
  intros (l & r & -> & N). unfold get_parameter. rewrite flat_map_app.
  assert (E : flat_map (fun a => match a with APair n v => if eqb n name then [v] else nil | _ => nil end) l = nil).
  { induction l as [|a l IH]; [reflexivity|]. cbn [flat_map]. rewrite IH by (intros w Hw; apply (N w); now right).
    destruct a as [p|s|n w]; try reflexivity.
    destruct (eqb_spec n name) as [->|_]; [|reflexivity]. exfalso. apply (N w). now left. }
  rewrite E. cbn [app flat_map]. now rewrite eqb_refl.
Qed.
Lemma get_no name ps : no_option name ps -> get_parameter name ps = None.
Proof.
  intro N. unfold get_parameter.
  assert (E : flat_map (fun a => match a with APair n v => if eqb n name then [v] else nil | _ => nil end) ps = nil).
  { induction ps as [|a l IH]; [reflexivity|]. cbn [flat_map]. rewrite IH by (intros w Hw; apply (N w); now right).
    destruct a as [p|s|n w]; try reflexivity.
    destruct (eqb_spec n name) as [->|_]; [|reflexivity]. exfalso. apply (N w). now left. }
  now rewrite E.
Qed.

Lemma no_get name ps : get_parameter name ps = None -> no_option name ps.
Proof.
  unfold get_parameter. intros E w I. apply in_split in I as (l & r & ->). revert E. rewrite flat_map_app.
  cbn [flat_map]. rewrite eqb_refl. destruct (flat_map _ l); discriminate.
Qed.
Lemma is_get name v ps : get_parameter name ps = Some v -> option_is name v ps.
Proof.
  induction ps as [|a ps IH]; [discriminate|].
  assert (G : (forall w, a <> APair name w) -> get_parameter name (a :: ps) = get_parameter name ps).
  { intro N. unfold get_parameter. cbn [flat_map]. destruct a as [p|s|n w]; try reflexivity.
    destruct (eqb_spec n name) as [->|_]; [now destruct (N w) | reflexivity]. }
  assert (D : (exists w, a = APair name w) \/ forall w, a <> APair name w).
  { destruct a as [p|s|n w]; try (right; discriminate). destruct (eqb_spec n name) as [->|Hn]; [left; now exists w|].
    right. intros u E. apply Hn. now injection E. }
  destruct D as [[w ->]|D].
  - unfold get_parameter. cbn [flat_map]. rewrite eqb_refl. cbn. intro E. injection E as <-.
    exists nil, ps. split; [reflexivity | intros u []].
  - rewrite (G D). intro E. destruct (IH E) as (l & r & -> & N). exists (a :: l), r. split; [reflexivity|].
    intros u [I|I]; [exact (D u I) | exact (N u I)].
Qed.

Section Options.
Variables (sanitize : str -> str) (int_text : str -> option Z) (trunc : str -> Z) (float_text : val -> option str).
Variables (ins : list path) (out : path).
Hypotheses (Hins : Forall (plain_path sanitize) ins) (Hout : plain_path sanitize out).

Lemma either_crop v ps : truthy v = true -> crop_is v ps -> get_either (lit "crop") (lit "crop_percentage") ps = Some v.
Proof.
  intros T [H|[H K]]; unfold get_either.
  - now rewrite (get_of _ _ _ H), T.
  - now rewrite (get_no _ _ H), (get_of _ _ _ K).
Qed.

(** One percentage for all margins, or one for each *)
Theorem C66_crop_one_partial ps z :
  z <> 0%Z -> crop_is (VInt z) ps -> no_option (lit "offset") ps ->
  pdfcrop sanitize int_text trunc ps ins out
  = Ok ([lit "pdf-crop-margins"; lit "-p"; str_of_Z z; lit "-o"; path_str out] ++ map path_str ins).
Proof.
  intros Z C O. unfold pdfcrop.
  assert (T : truthy (VInt z) = true) by (cbn [truthy]; apply negb_true_iff; now apply Z.eqb_neq).
  rewrite (either_crop _ _ T C), (get_no _ _ O). cbn [margins_of]. rewrite T. cbn [bind].
  rewrite (C66_pdfcrop_partial _ _ _ Hins Hout). reflexivity.
Qed.
Theorem C66_crop_four ps a b c d :
  crop_is (VTuple [VInt a; VInt b; VInt c; VInt d]) ps -> no_option (lit "offset") ps ->
  pdfcrop sanitize int_text trunc ps ins out
  = Ok ([lit "pdf-crop-margins"; lit "-p4"; str_of_Z a; str_of_Z b; str_of_Z c; str_of_Z d; lit "-o"; path_str out] ++ map path_str ins).
Proof.
  intros C O. unfold pdfcrop. rewrite (either_crop _ _ (eq_refl : truthy (VTuple [VInt a; VInt b; VInt c; VInt d]) = true) C), (get_no _ _ O). cbn [margins_of truthy length Nat.eqb negb validate_tuple ints_of int_of bind map].
  rewrite (C66_pdfcrop_partial _ _ _ Hins Hout). reflexivity.
Qed.
Theorem C66_crop_offset ps a b c d e f g h :
  crop_is (VTuple [VInt a; VInt b; VInt c; VInt d]) ps -> option_is (lit "offset") (VTuple [VInt e; VInt f; VInt g; VInt h]) ps ->
  pdfcrop sanitize int_text trunc ps ins out
  = Ok ([lit "pdf-crop-margins"; lit "-a4"; str_of_Z e; str_of_Z f; str_of_Z g; str_of_Z h;
         lit "-p4"; str_of_Z a; str_of_Z b; str_of_Z c; str_of_Z d; lit "-o"; path_str out] ++ map path_str ins).
Proof.
  intros C O. unfold pdfcrop. rewrite (either_crop _ _ (eq_refl : truthy (VTuple [VInt a; VInt b; VInt c; VInt d]) = true) C), (get_of _ _ _ O). cbn [margins_of truthy length Nat.eqb negb validate_tuple ints_of int_of bind map].
  rewrite (C66_pdfcrop_partial _ _ _ Hins Hout). reflexivity.
Qed.
(** A tuple must have four items; a text is never accepted, though attributes of tags are texts *)
Theorem C66_crop_length ps l :
  crop_is (VTuple l) ps -> l <> nil -> length l <> 4 -> pdfcrop sanitize int_text trunc ps ins out = Raise ValueError.
Proof.
  intros C N L. unfold pdfcrop.
  assert (T : truthy (VTuple l) = true) by (destruct l; [now destruct N | reflexivity]).
  rewrite (either_crop _ _ T C). cbn [margins_of]. rewrite T. cbn [validate_tuple].
  now rewrite (proj2 (Nat.eqb_neq _ _) L).
Qed.
Theorem C66_crop_text_fails ps s :
  s <> nil -> crop_is (VText s) ps -> pdfcrop sanitize int_text trunc ps ins out = Raise TypeError.
Proof.
  intros N C. unfold pdfcrop.
  assert (T : truthy (VText s) = true) by (destruct s; [now destruct N | reflexivity]).
  rewrite (either_crop _ _ T C). cbn [margins_of]. now rewrite T.
Qed.

(** Scaling *)
Theorem C66_scale ps v t :
  option_is (lit "scale") v ps -> float_text v = Some t ->
  scalesvg sanitize float_text ps ins out
  = Ok ([lit "rsvg-convert"; lit "-z"; t; lit "-f"; lit "svg"; lit "-o"; path_str out] ++ map path_str ins).
Proof.
  intros S F. unfold scalesvg. rewrite (get_of _ _ _ S), F, (C66_scalesvg_partial _ _ _ Hins Hout). reflexivity.
Qed.
Theorem C66_scale_invalid ps :
  no_option (lit "scale") ps \/ (exists v, option_is (lit "scale") v ps /\ float_text v = None) ->
  scalesvg sanitize float_text ps ins out = Raise ValueError.
Proof.
  unfold scalesvg. intros [H|(v & H & F)]; [now rewrite (get_no _ _ H)|]. now rewrite (get_of _ _ _ H), F.
Qed.

(** A page cannot be chosen: a page number is an argument that is not a text *)
Theorem C66_page_fails ps z :
  option_is (lit "page") (VInt z) ps -> z <> 0%Z ->
  exists w, pdf2svg sanitize int_text trunc ps ins out = Ok w /\ started w = Raise TypeError.
Proof.
  intros P Z. unfold pdf2svg, page_of, get_either. rewrite (get_of _ _ _ P). cbn [truthy].
  rewrite (proj2 (Z.eqb_neq _ _) Z). cbn [negb int_of bind]. eexists. split; [reflexivity|].
  assert (G : forall l, started (map Word l ++ [Number z]) = Raise TypeError).
  { induction l as [|a l IH]; [reflexivity|]. cbn [map app started]. now rewrite IH. }
  apply G.
Qed.
End Options.

(** ** The conversion of a pdf to an svg *)
Section Steps.
Variables (sanitize : str -> str) (int_text : str -> option Z) (trunc : str -> Z) (float_text : val -> option str).
Lemma started_words l : started (map Word l) = Ok l.
Proof. induction l as [|a l IH]; [reflexivity|]. cbn [map started]. now rewrite IH. Qed.

(** The program that converts is always there; the one that crops is there if a crop was asked and the one
    that scales if a scale was asked, in this order, and each reads what the one before writes *)
Theorem C66_steps ps files cs :
  (forall n, plain_path sanitize (files n)) -> svg_commands sanitize int_text trunc float_text ps files = Ok cs ->
  exists crop scale,
    cs = crop ++ [[lit "pdf2svg"; path_str (files (length crop)); path_str (files (S (length crop)))]] ++ scale /\
    (crop_asked ps -> exists c, crop = [c] /\ pdfcrop sanitize int_text trunc ps [files 0] (files 1) = Ok c) /\
    (~ crop_asked ps -> crop = nil) /\
    (forall v, option_is (lit "scale") v ps -> exists t, float_text v = Some t /\
       scale = [[lit "rsvg-convert"; lit "-z"; t; lit "-f"; lit "svg"; lit "-o";
                 path_str (files (S (S (length crop)))); path_str (files (S (length crop)))]]) /\
    (no_option (lit "scale") ps -> scale = nil).
Proof.
  intros F H. unfold svg_commands in H. destruct ps as [|a ps]; [discriminate H|].
  remember (a :: ps) as qs eqn:Eq. clear Eq a ps.
  set (crop := match get_parameter (lit "crop") qs with Some v => Some v | None => get_parameter (lit "crop_percentage") qs end) in H.
  set (k := match crop with Some _ => do c <- pdfcrop sanitize int_text trunc qs [files 0] (files 1) ; Ok [c] | None => Ok nil end) in H.
  destruct k as [first|x] eqn:E1; [|discriminate H]. cbn [bind] in H.
  unfold pdf2svg in H. cbn [page_of get_either get_parameter flat_map hd_error bind] in H.
  rewrite app_nil_r, started_words in H. cbn [bind] in H.
  rewrite C66_pdf2svg_partial in H by (first [apply F | constructor; [apply F | constructor]]).
  set (m := match get_parameter (lit "scale") qs with
            | Some _ => do c <- scalesvg sanitize float_text qs [files (S (length first))] (files (S (S (length first)))) ; Ok [c]
            | None => Ok nil end) in H.
  destruct m as [third|x] eqn:E2; [|discriminate H]. cbn [bind] in H. injection H as <-.
  exists first, third. split; [reflexivity|].
  split; [|split; [|split]].
  - intros [v Hv]. assert (C : crop <> None).
    { unfold crop. destruct Hv as [Hv|[A Hv]]; [rewrite (get_of _ _ _ Hv) | rewrite (get_no _ _ A), (get_of _ _ _ Hv)]; discriminate. }
    unfold k in E1. destruct crop; [|now destruct C].
    destruct (pdfcrop sanitize int_text trunc qs [files 0] (files 1)) as [c|] eqn:P; [|discriminate E1].
    cbn [bind] in E1. injection E1 as <-. exists c. now split.
  - intro N. unfold k in E1. destruct crop as [v|] eqn:C; [|now injection E1 as <-].
    exfalso. apply N. exists v. unfold crop in C.
    destruct (get_parameter (lit "crop") qs) as [w|] eqn:G.
    + injection C as ->. left. now apply is_get.
    + right. split; [now apply no_get | now apply is_get].
  - intros v Hv. unfold m in E2. rewrite (get_of _ _ _ Hv) in E2.
    unfold scalesvg in E2. rewrite (get_of _ _ _ Hv) in E2. destruct (float_text v) as [t|]; [|discriminate E2].
    rewrite C66_scalesvg_partial in E2 by (first [apply F | constructor; [apply F | constructor]]).
    cbn [bind] in E2. injection E2 as <-. exists t. now split.
  - intro N. unfold m in E2. rewrite (get_no _ _ N) in E2. now injection E2 as <-.
Qed.
(** Without options, one program runs; without parameters at all the conversion cannot be made *)
Theorem C66_default ps files :
  (forall n, plain_path sanitize (files n)) -> ps <> nil ->
  no_option (lit "crop") ps -> no_option (lit "crop_percentage") ps -> no_option (lit "scale") ps ->
  svg_commands sanitize int_text trunc float_text ps files = Ok [[lit "pdf2svg"; path_str (files 0); path_str (files 1)]].
Proof.
  intros F N A B C. unfold svg_commands. destruct ps as [|a ps]; [now destruct N|].
  rewrite (get_no _ _ A), (get_no _ _ B), (get_no _ _ C). unfold pdf2svg.
  cbn [length bind page_of get_either get_parameter flat_map hd_error]. rewrite app_nil_r, started_words. cbn [bind app].
  rewrite C66_pdf2svg_partial by (first [apply F | constructor; [apply F | constructor]]). reflexivity.
Qed.
End Steps.
(** Without any parameters, the conversion cannot be made *)
Theorem C66_no_parameters sanitize int_text trunc float_text files :
  svg_commands sanitize int_text trunc float_text nil files = Raise TypeError.
Proof. reflexivity. Qed.

(** The page that is asked for does not matter *)
Definition ex_file (n : nat) : path := of_str (nth n [lit "a.pdf"; lit "b.pdf"; lit "b.svg"; lit "c.svg"] (lit "d.svg")).
Definition ex_float (v : val) : option str := match v with VText s => Some s | VFloat _ s => Some s | _ => None end.
Theorem C66_page_refuted :
  ~ (forall ps files s cs, option_is (lit "page") (VText s) ps ->
     svg_commands (fun s => s) (fun _ => Some 2%Z) (fun _ => 0%Z) ex_float ps files = Ok cs ->
     exists c, In c cs /\ In s c).
Proof.
  intro H.
  destruct (H [APair (lit "page") (VText (lit "2"))] ex_file (lit "2") [[lit "pdf2svg"; lit "a.pdf"; lit "b.pdf"]])
    as (c & [<-|[]] & I).
  - exists nil, nil. split; [reflexivity | intros w []].
  - reflexivity.
  - vm_compute in I. repeat destruct I as [I|I]; try discriminate I. exact I.
Qed.
(** A crop of zero is not given to the program, nor is one offset for all margins *)
Theorem C66_crop_zero_refuted :
  ~ (forall ps ins out c, option_is (lit "crop") (VInt 0) ps ->
     pdfcrop (fun s => s) (fun _ => None) (fun _ => 0%Z) ps ins out = Ok c -> In (lit "0") c).
Proof.
  intro H. specialize (H [APair (lit "crop") (VInt 0)] [ex_file 0] (ex_file 1) [lit "pdf-crop-margins"; lit "-o"; lit "b.pdf"; lit "a.pdf"]).
  assert (I : In (lit "0") [lit "pdf-crop-margins"; lit "-o"; lit "b.pdf"; lit "a.pdf"]).
  { apply H; [|reflexivity]. exists nil, nil. split; [reflexivity | intros w []]. }
  vm_compute in I. repeat destruct I as [I|I]; try discriminate I. exact I.
Qed.
Theorem C66_offset_one_refuted :
  ~ (forall ps ins out c, option_is (lit "offset") (VInt 7) ps ->
     pdfcrop (fun s => s) (fun _ => None) (fun _ => 0%Z) ps ins out = Ok c -> In (lit "7") c).
Proof.
  intro H. specialize (H [APair (lit "offset") (VInt 7)] [ex_file 0] (ex_file 1) [lit "pdf-crop-margins"; lit "-o"; lit "b.pdf"; lit "a.pdf"]).
  assert (I : In (lit "7") [lit "pdf-crop-margins"; lit "-o"; lit "b.pdf"; lit "a.pdf"]).
  { apply H; [|reflexivity]. exists nil, nil. split; [reflexivity | intros w []]. }
  vm_compute in I. repeat destruct I as [I|I]; try discriminate I. exact I.
Qed.

(** ** A case *)
Lemma ex_plain n : plain_path (fun s => s) (ex_file n).
Proof.
  assert (G : forall s, In s [lit "a.pdf"; lit "b.pdf"; lit "b.svg"; lit "c.svg"; lit "d.svg"] -> plain_path (fun s => s) (of_str s)).
  { intros s Hs. split; [reflexivity|]. repeat destruct Hs as [<-|Hs]; try destruct Hs; vm_compute path_str;
    (split; [split; [discriminate | intros c Hc; repeat (destruct Hc as [<-|Hc]; [reflexivity|]); destruct Hc]|]);
    (split; [intros c r E; injection E as <- _; intro I; vm_compute in I; repeat destruct I as [I|I]; try discriminate I; exact I|]);
    intros c r E;
    match type of E with ?l = _ => change l with (removelast l ++ [last l 0%N]) in E end;
    apply app_inj_tail in E as [_ <-]; intro I; vm_compute in I; repeat destruct I as [I|I]; try discriminate I; exact I. }
  unfold ex_file. apply G. do 4 (destruct n as [|n]; [cbn [nth]; cbn [In]; tauto|]). destruct n; cbn [nth In]; tauto.
Qed.
Definition ex_ps : list arg :=
  [AFile (of_str (lit "a.pdf")); APair (lit "crop") (VInt 20); APair (lit "scale") (VText (lit "1.5"))].
Example C66_ex :
  svg_commands (fun s => s) (fun _ => None) (fun _ => 0%Z) ex_float ex_ps ex_file
  = Ok [[lit "pdf-crop-margins"; lit "-p"; lit "20"; lit "-o"; lit "b.pdf"; lit "a.pdf"];
        [lit "pdf2svg"; lit "b.pdf"; lit "b.svg"];
        [lit "rsvg-convert"; lit "-z"; lit "1.5"; lit "-f"; lit "svg"; lit "-o"; lit "c.svg"; lit "b.svg"]]
  /\ crop_asked ex_ps /\ option_is (lit "scale") (VText (lit "1.5")) ex_ps /\ forall n, plain_path (fun s => s) (ex_file n).
Proof.
  split; [reflexivity|]. split.
  - exists (VInt 20). left. apply is_get. reflexivity.
  - split; [apply is_get; reflexivity | exact ex_plain].
Qed.
