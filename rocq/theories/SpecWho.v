(** * SpecWho: which element draws which path *)
From Verif Require Export SpecTidy.

(** an element with the elements around it, outermost first; the element itself is the last *)
Definition chain := list (string * list attr).
(** the elements of a tree that can draw into the picture (or into the mask around the tree), in
    document order: those not inside <defs>, a gradient or a further mask *)
Fixpoint drawers (above : chain) (n : node) : list chain :=
  match n with
  | Elem name attrs kids =>
    if String.eqb name "defs" || is_gradient name || String.eqb name "mask" then []
    else (above ++ [(name, attrs)]) :: flat_map (drawers (above ++ [(name, attrs)])) kids
  | _ => []
  end.
(** the mask elements of a tree outside <defs>, in document order, each with the elements in it *)
Fixpoint mask_elements (above : chain) (n : node) : list (list attr * list chain) :=
  match n with
  | Elem name attrs kids =>
    if String.eqb name "defs" || is_gradient name then []
    else if String.eqb name "mask" then [(attrs, flat_map (drawers (above ++ [(name, attrs)])) kids)]
    else flat_map (mask_elements (above ++ [(name, attrs)])) kids
  | _ => []
  end.
Definition shape_tag (t : string) : bool :=
  existsb (String.eqb t) ["line"; "rect"; "circle"; "ellipse"; "polyline"; "polygon"; "path"]%string.

Section Who.
Context {E : Env}.
(** [of_element n s ch ps]: [ps], paths of the document [s], are what the element [ch] draws: nothing
    or one path, and nothing if it is not a shape; a path has the masks named on the element and
    around it, outermost first, when these are at most [n] *)
Definition of_element (n : nat) (s : svg E) (ch : chain) (ps : list (svgPath E)) : Prop :=
  length ps <= 1
  /\ (ps <> [] -> exists above name attrs, ch = above ++ [(name, attrs)] /\ shape_tag name = true)
  /\ forall p idss, List.In p ps -> Forall2 (fun e ids => attrs_mask (snd e) ids) ch idss ->
     sl_len (st_masks (sp_style p)) = length (concat idss)
     /\ (length (concat idss) <= n -> path_masks s p = concat idss).
(** [of_elements]: a list of paths drawn by a list of elements, in that order *)
Definition of_elements (n : nat) (s : svg E) (chs : list chain) (ps : list (svgPath E)) : Prop :=
  exists pss, Forall2 (of_element n s) chs pss /\ ps = concat pss.
(** a stored mask belongs to a mask element *)
Definition of_mask (n : nat) (s : svg E) (e : list attr * list chain) (m : svgMask E) : Prop :=
  mk_id m = text_attr "id" "" (fst e) /\ of_elements n s (snd e) (mk_paths m).
End Who.
(** documents without <use> outside definitions, without masks inside masks *)
Definition who_doc (ns : list node) : bool := forallb (fun n => tidy false false n && flat_in "mask" n) ns.
