(** * SpecLift: the outline of a shape element on its own *)
From Verif Require Export SpecTree.
Section Lift.
Context (E : Env).
(** a parser in its initial state but for view box and offset *)
Definition start_at (md : errorMode) (vb : bounds E) (off : point E) : cursor E :=
  let c := cursor0 md in
  c_set_svg (sv_set_viewBox vb (c_svg c)) (c_set_pc (set_cur (fst off) (snd off) (c_pc c)) c).
(** what the element draws there, with recursion depth [m]; a polyline or polygon has a points attribute *)
Definition alone (md : errorMode) (m : nat) (vb : bounds E) (off : point E) (name : string) (attrs : list attr) (p : path) : Prop :=
  List.In name shape_names
  /\ (name = "polyline" \/ name = "polygon" -> has_attr "points" attrs = true)%string
  /\ element_draws m name attrs (start_at md vb off) p.
(** every figure of [w], in the document or in a mask, is stored in [s] with its style and an outline
    [p] such that [Q f p] *)
Definition stores (Q : figure E -> path -> Prop) (w : world E) (s : svg E) : Prop :=
  let ok f sp := sp_style sp = fg_style E f /\ Q f (sp_path sp) in
  Forall2 ok (w_figs E w) (sv_paths s)
  /\ forall id b figs, w_masks E w id = Some (b, figs) -> exists mk, mget id (sv_masks s) = Some mk /\ Forall2 ok figs (mk_paths mk).
End Lift.
