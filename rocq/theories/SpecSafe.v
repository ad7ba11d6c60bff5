(** * SpecSafe: what a parsed document guarantees *)
From Verif Require Export SpecDoc.

Section Complete.
Context {E : Env}.
(** a gradient that can be drawn: it has a direction, and each stop a colour *)
Definition complete_gradient (g : gradient E) : Prop :=
  gDirection g <> None /\ Forall (fun s => stColor s <> None) (gStops g).
Definition complete_paint (p : option (pattern E)) : Prop :=
  match p with Some (PGrad g) => complete_gradient g | _ => True end.
Definition complete_style (st : style E) : Prop := complete_paint (st_filler st) /\ complete_paint (st_liner st).
(** the paths of a document, in its drawing or in one of its masks *)
Definition has_path (s : svg E) (p : svgPath E) : Prop :=
  List.In p (sv_paths s) \/ exists id m, mget id (sv_masks s) = Some m /\ List.In p (mk_paths m).
End Complete.

(** ** The masks of a path *)
Section Masks.
Context {E : Env}.
(** the Masks list of a stored path, read in the memory of the document [s] *)
Definition path_masks (s : svg E) (p : svgPath E) : list string :=
  let sl := st_masks (sp_style p) in firstn (sl_len sl) (nth (sl_arr sl) (sv_mheap s) []).
(** the masks named by a list of declarations *)
Inductive masks_named : list (string * string) -> list string -> Prop :=
| mn_nil : masks_named [] []
| mn_mask id ds ids : lacks ")" id = true -> masks_named ds ids -> masks_named (("mask", "url(#" ++ id ++ ")")%string :: ds) (id :: ids)
| mn_skip k v ds ids : k <> "mask"%string -> masks_named ds ids -> masks_named ((k, v) :: ds) ids.
Definition attrs_mask (attrs : list attr) (ids : list string) : Prop := exists ds, attrs_decls attrs ds /\ masks_named ds ids.
End Masks.

(** ** Positions in a document
    [open_at pre anc]: the tokens [pre] are the part of a document before some position; [anc] are
    the elements open there, outermost first. *)
Inductive open_at : list token -> list (string * list attr) -> Prop :=
| oa_start : open_at [] []
| oa_node pre anc n : open_at pre anc -> open_at (pre ++ tokens n) anc
| oa_into pre anc name attrs : open_at pre anc -> open_at (pre ++ [TStart name attrs]) (anc ++ [(name, attrs)]).
(** no element named [t] starts in [toks] *)
Definition no_start (t : string) (toks : list token) : Prop := forall attrs, ~ List.In (TStart t attrs) toks.
