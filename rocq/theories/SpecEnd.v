(** * SpecEnd: when parsing ends, and ends without a panic

    <use> draws the definitions collected in <defs>; a definition may itself contain <use>.  The
    definitions of a <defs> are cut into groups: an element with an id starts a new one.  These are
    the conditions under which following the references comes to an end. *)
From Coq Require Import Floats.SpecFloat.
From Verif Require Export SpecTidy F64.

(** the start tags of a tree, in document order; the inside of gradients is left out *)
Fixpoint starts (n : node) : list (string * list attr) :=
  match n with
  | Elem name attrs kids => if is_gradient name then [] else (name, attrs) :: flat_map starts kids
  | _ => []
  end.
(** the group to which an element with these attributes belongs, after group [g] *)
Definition group_of (g : string) (attrs : list attr) : string :=
  let id := text_attr "id" "" attrs in if String.eqb id "" then g else id.
Definition last_group (g : string) (l : list (string * list attr)) : string :=
  fold_left (fun g e => group_of g (snd e)) l g.
(** the references (group, href) made by the <use> elements among [l], which follows group [g] *)
Fixpoint group_refs (g : string) (l : list (string * list attr)) : list (string * string) :=
  match l with
  | [] => []
  | (name, attrs) :: r =>
    (if String.eqb name "use" then [(group_of g attrs, text_attr "href" "" attrs)] else [])
    ++ group_refs (group_of g attrs) r
  end.
(** all references between definitions in a tree *)
Fixpoint doc_refs (n : node) : list (string * string) :=
  match n with
  | Elem name _ kids =>
    if is_gradient name then []
    else if String.eqb name "defs" then group_refs "" (flat_map starts kids)
    else flat_map doc_refs kids
  | _ => []
  end.
(** references go from higher to lower rank *)
Definition descending (rank : string -> nat) (refs : list (string * string)) : Prop :=
  forall g x, List.In (g, String "#" x) refs -> rank x < rank g.
(** gradients contain only stops, and a <defs> does not contain another <defs>; [d]: inside <defs> *)
Fixpoint orderly (d : bool) (n : node) : bool :=
  match n with
  | Elem name _ kids =>
    if is_gradient name then stops_only kids
    else negb (d && String.eqb name "defs") && forallb (orderly (d || String.eqb name "defs")) kids
  | _ => true
  end.

(** ** Panics *)
(** no element of the tree has an id (those in gradients do not count) *)
Fixpoint no_id (n : node) : bool :=
  match n with
  | Elem name attrs kids =>
    is_gradient name || (negb (String.eqb name "endg") && String.eqb (text_attr "id" "" attrs) "" && forallb no_id kids)
  | _ => true
  end.
(** no <g> contains an element with an id, so that each group contains a <g> with its end or not at all *)
Fixpoint whole_groups (n : node) : bool :=
  match n with
  | Elem name _ kids =>
    is_gradient name || (negb (String.eqb name "endg") && forallb (if String.eqb name "g" then no_id else whole_groups) kids)
  | _ => true
  end.
(** the same for each <defs> of a tree *)
Fixpoint whole_defs (n : node) : bool :=
  match n with
  | Elem name _ kids =>
    is_gradient name || forallb (if String.eqb name "defs" then whole_groups else whole_defs) kids
  | _ => true
  end.
(** all elements of a tree *)
Fixpoint elements (n : node) : list (string * list attr) :=
  match n with
  | Elem name attrs kids => (name, attrs) :: flat_map elements kids
  | _ => []
  end.
Section Harmless.
Context (E : Env).
(** [declares a k v]: the attribute [a] declares [k: v], by itself or in a style attribute *)
Definition declares (a : attr) (k v : string) : Prop :=
  exists key val rest, k = trimSpace (toLower E key) /\ v = trimSpace val
  /\ (if String.eqb (toLower E (a_name a)) "style"
      then exists d, List.In d (split1 ";" (a_val a)) /\ split1 ":" d = key :: val :: rest
      else split1 ":" (a_name a ++ ":" ++ a_val a)%string = key :: val :: rest).
(** [stop_declares a v]: the attribute [a] of a stop declares the colour [v] *)
Definition stop_declares (a : attr) (v : string) : Prop :=
  (a_name a = "stop-color"%string /\ v = a_val a)
  \/ (a_name a = "style"%string /\ exists d key val, List.In d (split1 ";" (a_val a)) /\ cut1 ":" d = Some (key, val)
        /\ toLower E (trimSpace key) = "stop-color"%string /\ v = trimSpace val).
(** the texts that can make the colour parser panic *)
Definition bad_colour (s : string) : Prop :=
  s = EmptyString
  \/ (exists t, s = String "#" t /\ String.length t < 3)
  \/ (exists a b c e, s = ("rgb(" ++ a ++ "," ++ b ++ "," ++ c ++ e)%string
       /\ (e = "" \/ e = ")")%string /\ (a = "" \/ b = "" \/ c = "")%string).
Definition harmless (name : string) (attrs : list attr) : Prop :=
  (forall a k v, List.In a attrs -> declares a k v -> k = "fill"%string \/ k = "stroke"%string -> ~ bad_colour v)
  /\ (name = "stop"%string -> forall a v, List.In a attrs -> stop_declares a v -> ~ bad_colour v).
Definition harmless_doc (ns : list node) : Prop := forall name attrs, List.In (name, attrs) (flat_map elements ns) -> harmless name attrs.
End Harmless.

(** an angle as atan2 returns it: not a number, or between -pi and pi, as binary64 numbers *)
Definition angles (O : Oracles) : Prop := forall y x,
  o_atan2 O y x = S754_nan
  \/ (valid_binary 53 1024 (o_atan2 O y x) = true
      /\ SFleb (SFopp (fpi (F64 O))) (o_atan2 O y x) = true /\ SFleb (o_atan2 O y x) (fpi (F64 O)) = true).

(** no reference leads back to the group where it started *)
Inductive leads (refs : list (string * string)) : string -> string -> Prop :=
| leads_one g x : List.In (g, String "#" x) refs -> leads refs g x
| leads_more g x y : List.In (g, String "#" x) refs -> leads refs x y -> leads refs g y.
Definition acyclic (refs : list (string * string)) : Prop := forall g, ~ leads refs g g.
