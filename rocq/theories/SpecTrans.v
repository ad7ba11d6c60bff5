(** * SpecTrans: which texts are transforms (C72) *)
From Verif Require Export SpecRunes SpecStyle.

(** the parts of a text between closing brackets; the last is what follows the last of them *)
Fixpoint closing_parts (s : string) : string * list string :=
  match s with
  | EmptyString => (EmptyString, [])
  | String c s => let (p, ps) := closing_parts s in
                  if Ascii.eqb c ")" then (EmptyString, p :: ps) else (String c p, ps)
  end.
Definition parts_of (s : string) : list string := let (p, ps) := closing_parts s in p :: ps.
(** the characters of a text in ASCII *)
Definition ascii_chars (s : string) : list N := map N_of_ascii (list_ascii_of_string s).
Definition no_opening (s : string) : bool := all_chars (fun c => negb (Ascii.eqb c "(")) s.

Section Trans.
Context (E : Env).
(** functions and their arguments as in [tfun_reads]; translate also takes one number *)
Definition function_takes (name : string) (vs : list (F E)) (f : tfun E) : Prop :=
  tfun_reads E name vs f \/ exists x, name = "translate"%string /\ vs = [x] /\ f = Translate E x x.
(** A part is blank, or the name of a function, in any case, an opening bracket, and a text whose words are the numbers that the
    function takes. *)
Inductive part_reads : string -> list (tfun E) -> Prop :=
| pr_blank s : blank s = true -> part_reads s []
| pr_call l name m args vs f :
    blank l = true -> blank m = true -> no_opening args = true ->
    Forall2 (fun w v => word_value E w = Some v) (number_words (ascii_chars args)) vs ->
    function_takes (low_case name) vs f -> part_reads (l ++ name ++ m ++ "(" ++ args)%string [f].
(** the functions of a text *)
Definition transform_reads_as (v : string) (fs : list (tfun E)) : Prop :=
  exists fss, Forall2 part_reads (parts_of v) fss /\ fs = List.concat fss.
End Trans.
