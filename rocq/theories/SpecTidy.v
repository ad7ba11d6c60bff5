(** * SpecTidy: documents that use definitions and gradients the intended way *)
From Verif Require Export SpecSafe.

(** the character data of a tree *)
Fixpoint node_text (n : node) : string :=
  match n with
  | Elem _ _ kids => fold_right (fun k t => (node_text k ++ t)%string) EmptyString kids
  | Chars s => s
  | Misc => EmptyString
  end.
Definition nodes_text (ns : list node) : string := fold_right (fun k t => (node_text k ++ t)%string) EmptyString ns.
(** the text of each element named [t] outside <defs>, in document order *)
Fixpoint notes (t : string) (n : node) : list string :=
  match n with
  | Elem name _ kids =>
    if String.eqb name t then [nodes_text kids]
    else if String.eqb name "defs" then []
    else flat_map (notes t) kids
  | _ => []
  end.
(** no element named [t] contains another one *)
Fixpoint flat_in (t : string) (n : node) : bool :=
  match n with
  | Elem name _ kids =>
    if String.eqb name t then negb (existsb (mentions t) kids) else forallb (flat_in t) kids
  | _ => true
  end.

(** ** Tidy documents *)
Definition no_elements (ns : list node) : bool :=
  forallb (fun n => match n with Elem _ _ _ => false | _ => true end) ns.
(** only stop elements, with nothing but text in them *)
Definition stops_only (ns : list node) : bool :=
  forallb (fun n => match n with Elem name _ kids => String.eqb name "stop" && no_elements kids | _ => true end) ns.
Definition is_gradient (name : string) : bool := String.eqb name "linearGradient" || String.eqb name "radialGradient".
Definition plain_tag (name : string) : bool := negb (existsb (String.eqb name) ["title"; "desc"; "mask"]%string).
(** [tidy u d n]: [d] says whether [n] is inside <defs>.
    - Gradients contain only stops.
    - A <defs> does not contain another <defs>.
    - With [u = true], definitions contain no title, desc and mask (and <use> is allowed);
      with [u = false], there is no <use> outside <defs>. *)
Fixpoint tidy (u d : bool) (n : node) : bool :=
  match n with
  | Elem name _ kids =>
    if is_gradient name then stops_only kids
    else if d then negb (String.eqb name "defs") && (negb u || plain_tag name) && forallb (tidy u true) kids
    else (u || negb (String.eqb name "use")) && forallb (tidy u (String.eqb name "defs")) kids
  | _ => true
  end.
(** a whole document *)
Definition tidy_doc (u : bool) (ns : list node) : bool :=
  forallb (fun n => tidy u false n && flat_in "title" n && flat_in "desc" n) ns.
(** the part of a tidy document before a position that is not inside a title, desc, mask, gradient or
    definition *)
Inductive tidy_at (u : bool) : list token -> Prop :=
| ta_start : tidy_at u []
| ta_nodes pre ns : tidy_at u pre -> tidy_doc u ns = true -> tidy_at u (pre ++ flat_map tokens ns)
| ta_into pre name attrs : tidy_at u pre -> plain_tag name = true -> name <> "defs"%string -> is_gradient name = false ->
    u || negb (String.eqb name "use") = true -> tidy_at u (pre ++ [TStart name attrs]).
