(** Model of the lists of signals: /repo/src/disseminate/server/handlers/signals.py,
    /repo/src/disseminate/cli/setup/signals.py and [stub] in
    /repo/src/disseminate/utils/string.py *)
From Coq Require Import List Bool ZArith NArith Arith.
From Verif.Base Require Import Str Dict Sort PyText.
From Verif.Model Require Import Signals.
Import ListNotations.

(** utils/string.py:122 [_re_newline_space] (\s*\n\s* ), replaced by a space: a run of
    white space with a newline in it is matched as a whole.  [run] is the white space
    before [s]. *)
Definition flush (run : str) : str := if mem 10%N run then [32%N] else run.
Fixpoint newline_space (run s : str) : str :=
  match s with
  | nil => flush run
  | c :: r => if rx_space c then newline_space (run ++ [c]) r else flush run ++ c :: newline_space nil r
  end.
(** utils/string.py:125-145 [stub] *)
Definition stub (s : str) : str := newline_space nil (hd nil (split_s [10%N; 10%N] s)).

Section Lists.
(** Receivers, with their names and docstrings *)
Variable R : Type.
Variables (name : R -> str) (doc : R -> option str).
(** the docstring of the class Signal (signals/signals.py:7-16) *)
Variable class_doc : str.
Variable alive : R -> bool.

(** [sorted(signal.receivers_dict().items())] *)
Definition listed (s : signal R) : list (Z * R) :=
  isort (fun x y => Z.leb (fst x) (fst y)) (receivers_dict alive s).
(** The dict of a receiver *)
Record entry := { n_name : str; n_order : Z; n_doc : option str }.
Definition receiver_entry (x : Z * R) : entry :=
  {| n_name := name (snd x); n_order := fst x; n_doc := option_map stub (doc (snd x)) |}.
(** signals/signals.py:21-24: a signal without a description has that of its class *)
Definition signal_doc (d : option str) : str := match d with Some d => d | None => class_doc end.
(** server/handlers/signals.py:18-57 [signals_to_dict] for the signals of a namespace
    with their descriptions *)
Definition signals_to_dict (ns : list (str * (option str * signal R))) : list (str * str * list entry) :=
  map (fun x => (fst x, stub (signal_doc (fst (snd x))), map receiver_entry (listed (snd (snd x))))) ns.

(** cli/setup/signals.py:35, 52-54: the mark of the receiver with a number *)
Definition mark (count : nat) : str := if Nat.ltb count 26 then [(97 + N.of_nat count)%N] else str_of_nat count.
(** cli/setup/signals.py:51-64 the texts for the receivers of a signal.  The styles and
    the breaking of lines are not modelled; [order] is the text of a number. *)
Variable order : Z -> str.
Fixpoint receiver_texts (count : nat) (l : list (Z * R)) : list (str * str) :=
  match l with
  | nil => nil
  | (o, r) :: l =>
      (mark count ++ lit ". " ++ name r ++ match doc r with Some d => lit " - " ++ stub d | None => nil end,
       lit "   order: " ++ order o) :: receiver_texts (S count) l
  end.
(** cli/setup/signals.py:35-66 [print_signals] *)
Fixpoint print_signals (count : nat) (ns : list (str * (option str * signal R))) : list (str * str * list (str * str)) :=
  match ns with
  | nil => nil
  | (n, (d, s)) :: r => (str_of_nat count ++ lit ". " ++ n, stub (signal_doc d), receiver_texts 0 (listed s)) :: print_signals (S count) r
  end.
End Lists.
