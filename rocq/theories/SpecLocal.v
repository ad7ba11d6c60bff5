(** * SpecLocal: elements one by one (C73)

    What the parser says of a document, against what it says of each of its elements when that
    element is the whole document, alone or with its ancestors. *)
From Verif Require Export SpecDoc.

(** the elements of a tree, in document order *)
Fixpoint elements_of (n : node) : list (string * list attr) :=
  match n with
  | Elem name attrs kids => (name, attrs) :: flat_map elements_of kids
  | Chars _ | Misc => []
  end.
(** the elements that change how others are read: those that open a definition or a gradient, and the
    one that refers to a definition *)
Definition context_names : list string := ["defs"; "use"; "linearGradient"; "radialGradient"]%string.
Definition no_context (els : list (string * list attr)) : Prop := Forall (fun el => ~ List.In (fst el) context_names) els.
(** the document that consists of one element without content *)
Definition by_itself (el : string * list attr) : list node := [Elem (fst el) (snd el) []].
(** what parsing a document says: the error, if any, and the lines logged *)
Definition says_of (E : Env) (fuel : nat) (mode : errorMode) (ns : list node) (err : option goerr) (log : list string) : Prop :=
  exists s, parse (E := E) fuel mode (flat_map tokens ns) TermEOF = PSvg s err log.
Definition accepts (E : Env) (fuel : nat) (mode : errorMode) (ns : list node) : Prop := exists log, says_of E fuel mode ns None log.
Definition refuses (E : Env) (fuel : nat) (mode : errorMode) (ns : list node) (e : goerr) : Prop := exists log, says_of E fuel mode ns (Some e) log.

(** the branches of a tree, in document order: each element with its ancestors, [anc] being those of the tree *)
Fixpoint branches_of (anc : list (string * list attr)) (n : node) : list (list (string * list attr)) :=
  match n with
  | Elem name attrs kids => (anc ++ [(name, attrs)]) :: flat_map (branches_of (anc ++ [(name, attrs)])) kids
  | Chars _ | Misc => []
  end.
(** the document in which each element contains the next and nothing else *)
Fixpoint branch_doc (b : list (string * list attr)) : list node :=
  match b with
  | [] => []
  | el :: r => [Elem (fst el) (snd el) (branch_doc r)]
  end.
(** gradients do not contain gradients, nor <defs> others, and there is no <use> but inside <defs>, where it is only stored;
    [d], [g]: inside <defs>, inside a gradient *)
Definition is_grad_name (name : string) : bool := String.eqb name "linearGradient" || String.eqb name "radialGradient".
Fixpoint well_nested (d g : bool) (n : node) : bool :=
  match n with
  | Elem name _ kids =>
    negb (d && String.eqb name "defs") && negb (g && is_grad_name name) && (negb (String.eqb name "use") || d && negb g)
    && forallb (well_nested (d || String.eqb name "defs") (g || is_grad_name name)) kids
  | Chars _ | Misc => true
  end.
(** strings.ToLower leaves the letters "url" at the beginning of a text as they are, whatever follows *)
Definition lower_url (E : Env) : Prop := forall s, hasPrefix s "url(" = true -> hasPrefix (toLower E s) "url" = true.
