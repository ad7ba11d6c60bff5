(** * SpecPicture: the picture of a document, and items of the three graphics libraries that show it *)
From Verif Require Export SpecPaint.

(** points of subpaths *)
Section Map.
Context {G H : Type} (f : G -> H).
Definition seg_map (s : seg G) : seg H := match s with SLine b => SLine (f b) | SQuad b c => SQuad (f b) (f c) | SCube b c d => SCube (f b) (f c) (f d) end.
Definition sub_map (s : sub G) : sub H := mkSub (option_map f (s_start s)) (map seg_map (s_segs s)) (s_closed s).
End Map.

Section Picture.
Context {E : Env}.
Notation F := (F E).
Notation "# z" := (fnum E z%Z) (at level 1, format "# z").
(** a mark: the inside of an outline by some rule, or a line along it whose width is [w] times [k];
    in an opaque colour and with some opacity *)
Record ink := mkInk { k_red : Z; k_green : Z; k_blue : Z; k_opacity : F }.
Inductive mark :=
| Area (nonZero : bool) (area : list (sub (F * F))) (i : ink)
| Line (w k : F) (cap : lineCap) (join : lineJoin) (area : list (sub (F * F))) (i : ink).
Definition px (p : pt) : F * F := (fdiv E (f_of_Z E (fst p)) #64, fdiv E (f_of_Z E (snd p)) #64).

(** ** Items that show a mark *)
Definition rx_cap_of (c : lineCap) : rxCap := match c with LcButt => RxButt | LcRound => RxRound | LcSquare => RxSquare end.
Definition rx_join_of (j : lineJoin) : joinMode := match j with LjMiter => Miter | LjRound => Round | LjBevel => Bevel end.
(** rasterx: points in 1/64, width in 1/64 *)
Inductive rx_like : mark -> rxItem (E := E) -> Prop :=
| rx_area_like nz subs r g b o :
    rx_like (Area nz (map (sub_map px) subs) (mkInk r g b o)) (mkRxItem nz (map (pair Inside) subs) (Some (RxPlain r g b 255 o)))
| rx_line_like w k cap join subs r g b o miter :
    rx_like (Line w k cap join (map (sub_map px) subs) (mkInk r g b o))
      (mkRxItem true (map (pair (Along (Some (mkPens (f_to_i32 E (fmul E (fmul E w #64) k)) miter (rx_cap_of cap) (rx_cap_of cap) RxFlatGap (rx_join_of join))))) subs)
         (Some (RxPlain r g b 255 o))).
(** draw2d and gg: the opacity has 8 bits, lines have no dashes *)
Inductive d2_like : mark -> d2Item (E := E) -> Prop :=
| d2_area_like nz area r g b o : d2_like (Area nz area (mkInk r g b o)) (D2Filled area nz (r, g, b, alpha o))
| d2_line_like w k cap join area r g b o off :
    d2_like (Line w k cap join area (mkInk r g b o)) (D2Stroked area (mkD2Pens cap join (fmul E w k) [] off) (r, g, b, alpha o)).
Inductive gg_like : mark -> ggItem (E := E) -> Prop :=
| gg_area_like nz area r g b o : gg_like (Area nz area (mkInk r g b o)) (GgFilled None area nz (GgSolid (r, g, b, alpha o)))
| gg_line_like w k cap join area r g b o off :
    gg_like (Line w k cap join area (mkInk r g b o)) (GgStroked None area (mkGgPens cap join (fmul E w k) [] off) (GgSolid (r, g, b, alpha o))).

(** ** The picture: each path filled, then stroked, with its transform and the target matrix *)
Definition ink_of (p : option (pattern E)) (o : F) : list ink := match p with Some (PPlain r g b _) => [mkInk r g b o] | _ => [] end.
Definition marks_of (opt : renderOptions E) (sp : svgPath E) : list mark :=
  let st := sp_style sp in
  let m := mMult (st_transform st) (ro_target opt) in
  let area := subpaths (moved_px m) (sp_path sp) in
  map (Area (st_nonZero st) area) (ink_of (st_filler st) (fmul E (st_fillOpacity st) (ro_opacity opt)))
  ++ map (Line (st_lineWidth st) (widen m) (flat_cap (jTrailLineCap (st_join st))) (flat_join (jLineJoin (st_join st))) area)
       (ink_of (st_liner st) (fmul E (st_lineOpacity st) (ro_opacity opt))).
Definition picture (opt : renderOptions E) (sps : list (svgPath E)) : list mark := flat_map (marks_of opt) sps.

(** ** Conditions *)
(** a style all libraries know: opaque colours, no dashes; butt, round or square caps; round or bevel joins *)
Definition common (st : style E) : Prop :=
  plain_opaque (st_filler st) /\ plain_opaque (st_liner st) /\ st_dash st = []
  /\ (jTrailLineCap (st_join st) = ButtCap \/ jTrailLineCap (st_join st) = RoundCap \/ jTrailLineCap (st_join st) = SquareCap)
  /\ jLeadLineCap (st_join st) = NilCap /\ jLineGap (st_join st) = NilGap
  /\ (jLineJoin (st_join st) = Round \/ jLineJoin (st_join st) = Bevel).
(** no stroke after an even-odd fill, unless there is a non-zero one between them *)
Fixpoint rules_fine (rule : bool) (sps : list (svgPath E)) : Prop :=
  match sps with
  | [] => True
  | sp :: r => let rule' := match st_filler (sp_style sp) with Some _ => st_nonZero (sp_style sp) | None => rule end in
               (st_liner (sp_style sp) = None \/ rule' = true) /\ rules_fine rule' r
  end.
(** a paint; the same one if there are two *)
Definition one_colour (st : style E) : Prop :=
  match st_filler st, st_liner st with
  | Some p, Some q => p = q /\ st_fillOpacity st = st_lineOpacity st
  | None, None => False
  | _, _ => True
  end.
(** a path that all three show alike *)
Definition agreeable (s : svg E) (sp : svgPath E) : Prop :=
  common (sp_style sp) /\ one_move (sp_path sp) /\ one_colour (sp_style sp) /\ path_masks s sp = [].
End Picture.
