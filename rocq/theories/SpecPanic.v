(** * SpecPanic: which documents make the parser panic (C76)

    The parser looks at the elements, declarations and values in the order of the text and stops at the first that is wrong.
    It panics when that is a colour cut short in one of three ways, and reports an error otherwise. *)
From Verif Require Export SpecValid.

(** the first thing in a list that is not right is [wrong] *)
Definition first_wrong {A} (right wrong : A -> Prop) (l : list A) : Prop :=
  exists pre x post, l = pre ++ x :: post /\ Forall right pre /\ wrong x.
(** what stands between the separators [d] of a text *)
Fixpoint pieces (d : ascii) (s : string) : list string :=
  match s with
  | EmptyString => [EmptyString]
  | String c s =>
    if Ascii.eqb c d then EmptyString :: pieces d s
    else match pieces d s with p :: ps => String c p :: ps | [] => [String c EmptyString] end
  end.

Section Panic.
Context (E : Env) (mode : errorMode).
(** ** Colours *)
(** no text; fewer than three characters after #; three values in rgb() of which the first that is no integer is no text *)
Definition panic_colour (v : string) : Prop :=
  hasPrefix (low_case v) "url" = false /\ low_case v <> "none"%string /\ colorname E (low_case v) = None
  /\ (v = ""%string \/ (exists s, v = String "#" s /\ String.length s < 3)
      \/ exists a b c p, v = ("rgb(" ++ a ++ "," ++ b ++ "," ++ c ++ p)%string /\ List.In p [""; ")"]%string
           /\ lacks "," a = true /\ lacks "," b = true /\ lacks "," c = true
           /\ (a = ""%string \/ valid_component a /\ b = ""%string \/ valid_component a /\ valid_component b /\ c = ""%string)).

(** ** Declarations *)
(** the texts that declare something, in their order: attributes, and the parts of the attribute style *)
Definition texts_of (attrs : list attr) : list string :=
  flat_map (fun a => if String.eqb (low_case (a_name a)) "style" then pieces ";" (a_val a) else [(a_name a ++ ":" ++ a_val a)%string]) attrs.
Definition right_text (s : string) : Prop := forall k v, declaration s k v -> valid_decl E mode k v.
Definition text_panics (s : string) : Prop := exists k v, declaration s k v /\ (k = "fill"%string \/ k = "stroke"%string) /\ panic_colour v.

(** ** Stops *)
(** the attributes of a stop, then the parts of its first attribute style *)
Definition stop_texts (attrs : list attr) : list (sum attr string) :=
  map (@Datatypes.inl attr string) attrs ++ match first_attr "style" attrs with Some st => map (@Datatypes.inr attr string) (pieces ";" st) | None => [] end.
Definition stop_gives (x : sum attr string) (k v : string) : Prop :=
  match x with
  | Datatypes.inl a => k = a_name a /\ v = a_val a
  | Datatypes.inr s => exists n t k', s = (n ++ ":" ++ t)%string /\ lacks ":" n = true /\ padded n k' /\ padded t v /\ k = low_case k'
      /\ (k = "stop-color"%string \/ k = "stop-opacity"%string)
  end.
Definition right_stop (x : sum attr string) : Prop := forall k v, stop_gives x k v ->
  (k = "offset"%string -> valid_fraction E v) /\ (k = "stop-color"%string -> valid_colour E v) /\ (k = "stop-opacity"%string -> valid_length E v).
Definition stop_panics (x : sum attr string) : Prop := exists v, stop_gives x "stop-color" v /\ panic_colour v.

(** ** Elements where they stand *)
Definition panic_at (p : bool * bool * (string * list attr)) : Prop :=
  first_wrong right_text text_panics (texts_of (snd (snd p)))
  \/ (Forall right_text (texts_of (snd (snd p))) /\ snd (fst p) = true /\ fst (snd p) = "stop"%string
      /\ first_wrong right_stop stop_panics (stop_texts (snd (snd p)))).
End Panic.
