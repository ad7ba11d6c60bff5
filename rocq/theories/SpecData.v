(** * SpecData: which texts are path data (C71) *)
From Verif Require Export SpecRunes SpecLift.
Local Open Scope N_scope.

(** the letters that begin a command: all but e, which is part of a number *)
Definition begins_command (r : N) : bool := ((65 <=? r) && (r <=? 90) || (97 <=? r) && (r <=? 122)) && negb (r =? 101).
(** a text as what is before the first command, and the commands, each with the text after its letter *)
Fixpoint commands_in (cs : list N) : list N * list (N * list N) :=
  match cs with
  | [] => ([], [])
  | r :: cs => let (args, l) := commands_in cs in
               if begins_command r then ([], (r, args) :: l) else (r :: args, l)
  end.
Section Data.
Context (E : Env).
(** characters: Unicode scalar values; the letters and numbers among them are those of ASCII *)
Definition plain_data (cs : list N) : Prop :=
  Forall (fun r => scalar r /\ isNumber E r = decimal_digit r /\ isLetter E r = (begins_command r || (r =? 101))) cs.
(** A command is right if all words of its text are numbers, and there are one or more complete sets of them for its letter (none for
    Z).  A letter that is no command is reported, or ignored, except in strict mode. *)
Definition right_command (mode : errorMode) (c : N * list N) : Prop :=
  let words := number_words (snd c) in
  Forall (fun w => parseFloat E w <> None) words
  /\ match set_size (ascii_of_N (fst c)) with
     | Some _ => good_count (ascii_of_N (fst c)) (List.length words) = true
     | None => mode <> StrictErrorMode
     end.
Definition right_data (mode : errorMode) (cs : list N) : Prop := Forall (right_command mode) (snd (commands_in cs)).
(** The commands that a text consists of, with the values of their numbers; z is as good as Z.  Nothing is asked of the text before
    the first command. *)
Definition says (c : N * list N) (k : cmd E) : Prop :=
  (ascii_of_N (fst c) = letter E k \/ ascii_of_N (fst c) = "z"%char /\ k = ClosePath)
  /\ Forall2 (fun w v => word_value E w = Some v) (number_words (snd c)) (args E k).
Definition reads (cs : list N) (ks : list (cmd E)) : Prop := Forall2 says (snd (commands_in cs)) ks.
End Data.
