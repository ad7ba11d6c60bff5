(** * SpecErase: documents with fewer attributes *)
From Verif Require Export SpecSafe.

(** the attributes that the elements read themselves *)
Definition element_names : list string :=
  ["viewBox"; "width"; "height"; "x"; "y"; "rx"; "ry"; "id"; "cx"; "cy"; "r"; "x1"; "y1"; "x2"; "y2"; "points"; "d";
   "href"; "fx"; "fy"; "fr"; "gradientTransform"; "gradientUnits"; "spreadMethod"; "offset"; "stop-color"; "stop-opacity"]%string.

Section Less.
(** the declarations and the attributes that are left out *)
Context (dropped : string -> string -> Prop).
Inductive fewer_decls : list (string * string) -> list (string * string) -> Prop :=
| fd_nil : fewer_decls [] []
| fd_keep d l l' : fewer_decls l l' -> fewer_decls (d :: l) (d :: l')
| fd_drop k v l l' : dropped k v -> ~ List.In k ["stop-color"; "stop-opacity"]%string -> fewer_decls l l' -> fewer_decls ((k, v) :: l) l'.
(** attributes are left out, and declarations in style attributes *)
Inductive fewer : list attr -> list attr -> Prop :=
| fw_nil : fewer [] []
| fw_keep a l l' : fewer l l' -> fewer (a :: l) (a :: l')
| fw_drop n v k w l l' : low_case n <> "style"%string -> ~ List.In n element_names -> padded n k -> lacks ":" n = true ->
    (dropped (low_case k) w /\ padded v w /\ lacks ":" v = true \/ parts_named (low_case k) = []) ->
    fewer l l' -> fewer (mkAttr n v :: l) l'
| fw_style v v' ds ds' l l' : style_text v ds -> style_text v' ds' -> fewer_decls ds ds' ->
    fewer l l' -> fewer (mkAttr "style" v :: l) (mkAttr "style" v' :: l').
Inductive fewer_token : token -> token -> Prop :=
| ft_start name attrs attrs' : fewer attrs attrs' -> fewer_token (TStart name attrs) (TStart name attrs')
| ft_same t : fewer_token t t.
End Less.

(** declarations of properties that are not supported *)
Definition unknown_decl (k v : string) : Prop := parts_named k = [].
(** those, and mask declarations *)
Definition mask_decl (k v : string) : Prop :=
  parts_named k = [] \/ k = "mask"%string /\ (v = "none"%string \/ exists id, lacks ")" id = true /\ v = ("url(#" ++ id ++ ")")%string).

(** ** Documents that are the same but for the masks of their paths *)
Section Same.
Context {E : Env}.
Definition same_style (st st' : style E) : Prop := forall p, p <> MaskList -> part_of p st = part_of p st'.
Definition same_path (p p' : svgPath E) : Prop := sp_path p = sp_path p' /\ same_style (sp_style p) (sp_style p').
Definition same_mask (m m' : svgMask E) : Prop :=
  mk_id m = mk_id m' /\ mk_x m = mk_x m' /\ mk_y m = mk_y m' /\ mk_w m = mk_w m' /\ mk_h m = mk_h m' /\ mk_transform m = mk_transform m'
  /\ Forall2 same_path (mk_paths m) (mk_paths m').
Definition same_but_masks (s s' : svg E) : Prop :=
  sv_viewBox s = sv_viewBox s' /\ sv_titles s = sv_titles s' /\ sv_descs s = sv_descs s' /\ sv_transform s = sv_transform s'
  /\ sv_width s = sv_width s' /\ sv_height s = sv_height s'
  /\ Forall2 same_path (sv_paths s) (sv_paths s')
  /\ forall id, match mget id (sv_masks s), mget id (sv_masks s') with
                | Some m, Some m' => same_mask m m'
                | None, None => True
                | _, _ => False
                end.
(** the same in all exported fields and in the masks of the paths *)
Definition same_svg (s s' : svg E) : Prop :=
  sv_viewBox s = sv_viewBox s' /\ sv_titles s = sv_titles s' /\ sv_descs s = sv_descs s' /\ sv_transform s = sv_transform s'
  /\ sv_width s = sv_width s' /\ sv_height s = sv_height s' /\ sv_paths s = sv_paths s' /\ sv_masks s = sv_masks s'
  /\ sv_mheap s = sv_mheap s'.
(** the results of two runs of the parser are alike: both nil, both panic, or both a document, with the same error and log *)
Definition alike (same : svg E -> svg E -> Prop) (r r' : presult E) : Prop :=
  match r, r' with
  | PNil e, PNil e' => e = e'
  | PSvg s e log, PSvg s' e' log' => same s s' /\ e = e' /\ log = log'
  | PPanic, PPanic => True
  | PNoFuel, PNoFuel => True
  | _, _ => False
  end.
End Same.
