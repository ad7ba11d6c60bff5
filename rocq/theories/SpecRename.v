(** * SpecRename: documents that differ in the names of their ids *)
From Verif Require Export SpecErase SpecDraw.

(** the text "url(" occurs in [s] *)
Fixpoint mentions_url (s : string) : bool :=
  match s with
  | EmptyString => false
  | String _ r => String.prefix "url(" s || mentions_url r
  end.
(** an id as it is written in a reference url(#id) *)
Definition id_text (x : string) : bool := lacks ")" x && lacks ":" x && all_chars (fun c => is_ascii c && negb (is_blank c)) x.
(** the properties whose value may be a reference *)
Definition refs : list string := ["fill"; "stroke"; "mask"]%string.

Section Rename.
(** the new name of each id *)
Context (rho : string -> string).
Inductive ref_text : string -> string -> Prop :=
| ref_url x : id_text x = true -> id_text (rho x) = true -> ref_text ("url(#" ++ x ++ ")")%string ("url(#" ++ rho x ++ ")")%string.
Inductive ren_decl : string * string -> string * string -> Prop :=
| rd_same k v : ~ List.In k refs \/ String.prefix "url(" v = false -> ren_decl (k, v) (k, v)
| rd_ref k v v' : List.In k refs -> ref_text v v' -> ren_decl (k, v) (k, v').
Inductive ren_attr : attr -> attr -> Prop :=
| ra_id x : ren_attr (mkAttr "id" x) (mkAttr "id" (rho x))
| ra_href x : ren_attr (mkAttr "href" ("#" ++ x)) (mkAttr "href" ("#" ++ rho x))
| ra_same n v : n <> "id"%string -> (n = "href"%string -> String.prefix "#" v = false) -> mentions_url (n ++ ":" ++ v) = false ->
    ren_attr (mkAttr n v) (mkAttr n v)
| ra_ref n v v' : List.In (low_case n) refs -> ref_text v v' -> ren_attr (mkAttr n v) (mkAttr n v')
| ra_style n v v' ds ds' : low_case n = "style"%string -> style_text v ds -> style_text v' ds' -> Forall2 ren_decl ds ds' ->
    ren_attr (mkAttr n v) (mkAttr n v').
Inductive ren_token : token -> token -> Prop :=
| rt_start name l l' : Forall2 ren_attr l l' -> ren_token (TStart name l) (TStart name l')
| rt_end name : ren_token (TEnd name) (TEnd name)
| rt_text s : ren_token (TChar s) (TChar s)
| rt_other : ren_token TOther TOther.

(** ** The same document with the masks renamed *)
Context {E : Env}.
Definition ren_mask (m : svgMask E) : svgMask E := mkMask (rho (mk_id m)) (mk_x m) (mk_y m) (mk_w m) (mk_h m) (mk_paths m) (mk_transform m).
(** masks are found under their new names, and the paths name them by their new names *)
Definition renamed (s s' : svg E) : Prop :=
  sv_viewBox s = sv_viewBox s' /\ sv_titles s = sv_titles s' /\ sv_descs s = sv_descs s' /\ sv_transform s = sv_transform s'
  /\ sv_width s = sv_width s' /\ sv_height s = sv_height s' /\ sv_paths s = sv_paths s'
  /\ (forall id, mget (rho id) (sv_masks s') = option_map ren_mask (mget id (sv_masks s)))
  /\ (forall id', mget id' (sv_masks s') <> None -> exists id, id' = rho id)
  /\ (forall p, path_masks s' p = map rho (path_masks s p)).
End Rename.
