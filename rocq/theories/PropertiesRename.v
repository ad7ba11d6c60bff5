(** * PropertiesRename: the names of ids do not matter (C51) *)
From Verif Require Import ProofsRename ExTree.
Local Open Scope go_scope.

(** C51.  Renaming the ids of a document and the references to them, by any injective function that
    keeps the empty name, changes nothing but the names: same outlines and styles, same gradients on
    the paths, same expansion of use elements, same masks under the new names, same error, panic and log. *)
Theorem C51_renamed : forall (E : Env) (rho : string -> string) (fuel : nat) (mode : errorMode) (toks toks' : list token) (tm : term),
  (forall x y, rho x = rho y -> x = y) -> rho ""%string = ""%string ->
  Forall2 (ren_token rho) toks toks' ->
  alike (E := E) (renamed rho) (parse fuel mode toks tm) (parse fuel mode toks' tm).
Proof. exact renaming. Qed.
Print Assumptions C51_renamed.
(** and the three renderers make the same calls for both documents *)
Theorem C51_drawn : forall (E : Env) (rho : string -> string) (fuel : nat) (mode : errorMode) (toks toks' : list token) (tm : term) (s : svg E) e log,
  (forall x y, rho x = rho y -> x = y) -> rho ""%string = ""%string ->
  Forall2 (ren_token rho) toks toks' -> parse fuel mode toks tm = PSvg s e log ->
  exists s', parse fuel mode toks' tm = PSvg s' e log
  /\ (forall ext opts, rxDrawSvg ext s opts = rxDrawSvg ext s' opts)
  /\ (forall opts, d2DrawSvg s opts = d2DrawSvg s' opts)
  /\ (forall fuel' opts, ggDrawSvg fuel' s opts = ggDrawSvg fuel' s' opts).
Proof. exact renaming_drawn. Qed.
Print Assumptions C51_drawn.

(** a gradient, a mask, a definition used twice: once by itself and once with a mask *)
Definition C51_doc (g m d : string) : list token :=
  [TStart "svg" [mkAttr "viewBox" "0 0 10 10"];
   TStart "defs" [];
   TStart "linearGradient" [mkAttr "id" g]; TStart "stop" [mkAttr "stop-color" "#102030"]; TEnd "stop"; TEnd "linearGradient";
   TStart "rect" [mkAttr "id" d; mkAttr "width" "1"; mkAttr "height" "2"]; TEnd "rect"; TEnd "defs";
   TStart "mask" [mkAttr "id" m; mkAttr "width" "4"]; TStart "path" [mkAttr "d" "M1 2L3 4"]; TEnd "path"; TEnd "mask";
   TStart "path" [mkAttr "style" ("fill:url(#" ++ g ++ ");stroke-width:4"); mkAttr "d" "M1 2L3 4"]; TEnd "path";
   TStart "use" [mkAttr "href" ("#" ++ d); mkAttr "mask" ("url(#" ++ m ++ ")")]; TEnd "use"; TEnd "svg"]%string.
Definition C51_rho (x : string) : string := match x with EmptyString => EmptyString | _ => ("n-" ++ x)%string end.
Lemma same_attr rho n v : negb (String.eqb n "id" || String.eqb n "href" || mentions_url (n ++ ":" ++ v)) = true -> ren_attr rho (mkAttr n v) (mkAttr n v).
Proof.
  intros H. apply negb_true_iff in H. apply Bool.orb_false_iff in H as [H H3]. apply Bool.orb_false_iff in H as [H1 H2].
  apply String.eqb_neq in H1. apply String.eqb_neq in H2. apply ra_same; [exact H1|intros K; contradiction|exact H3].
Qed.
Definition C51_grad (r : presult D) : option (list (option color)) :=
  match r with
  | PSvg s None [] => match sv_paths s with p :: _ => match st_filler (sp_style p) with Some (PGrad g) => Some (map stColor (gStops g)) | _ => None end | [] => None end
  | _ => None
  end.
Definition C51_data (r : presult D) : list (nat * list string) * list string :=
  match r with PSvg s None [] => (map (fun p => (List.length (sp_path p), path_masks s p)) (sv_paths s), map fst (sv_masks s)) | _ => ([], []) end.
Example C51_example :
  (forall x y, C51_rho x = C51_rho y -> x = y) /\ C51_rho "" = ""%string
  /\ Forall2 (ren_token C51_rho) (C51_doc "a" "b" "c") (C51_doc "n-a" "n-b" "n-c")
  /\ C51_data (parse 3 StrictErrorMode (C51_doc "a" "b" "c") TermEOF) = ([(2, []); (5, ["b"])], ["b"])%string
  /\ C51_data (parse 3 StrictErrorMode (C51_doc "n-a" "n-b" "n-c") TermEOF) = ([(2, []); (5, ["n-b"])], ["n-b"])%string
  /\ C51_grad (parse 3 StrictErrorMode (C51_doc "n-a" "n-b" "n-c") TermEOF) = Some [Some (CNRGBA 16 32 48 255)].
Proof.
  split. { intros [|c x] [|d y]; cbn; congruence. }
  split; [reflexivity|]. split; [|split; [|split]; vm_compute; reflexivity].
  assert (St : forall x, id_text x = true -> lacks ";" x = true -> style_text ("fill:url(#" ++ x ++ ");stroke-width:4") [("fill", "url(#" ++ x ++ ")"); ("stroke-width", "4")]%string).
  { intros x Hx Hs.
    replace ("fill:url(#" ++ x ++ ");stroke-width:4")%string with (("fill" ++ ":" ++ ("url(#" ++ x ++ ")")) ++ ";" ++ "stroke-width:4")%string
      by (rewrite !sapp_assoc; cbn; rewrite ?sapp_assoc; reflexivity).
    destruct (ref_padded x Hx) as [P1 L1].
    apply (stt_cons _ [("fill", "url(#" ++ x ++ ")")]%string _ [("stroke-width", "4")]%string).
    - unfold lacks in *. rewrite !all_chars_app, Hs. reflexivity.
    - apply (dt_decl "fill" _ "fill"); [apply solid_padded; reflexivity|exact P1|reflexivity|exact L1].
    - apply stt_last; [reflexivity|]. apply (dt_decl "stroke-width" "4" "stroke-width" "4"); try reflexivity; apply solid_padded; reflexivity. }
  assert (Ref : forall x, id_text x = true -> id_text (C51_rho x) = true -> ref_text C51_rho ("url(#" ++ x ++ ")") ("url(#" ++ C51_rho x ++ ")")) by (intros; constructor; assumption).
  unfold C51_doc.
  repeat (constructor; [first [apply rt_end | apply rt_start]|]); try (constructor);
    repeat first [apply Forall2_nil | apply Forall2_cons];
    try (apply same_attr; reflexivity).
  - exact (ra_id C51_rho "a").
  - exact (ra_id C51_rho "c").
  - exact (ra_id C51_rho "b").
  - apply (ra_style C51_rho "style" _ _ _ _ eq_refl (St "a"%string eq_refl eq_refl) (St "n-a"%string eq_refl eq_refl)).
    constructor; [|constructor; [|constructor]].
    + apply rd_ref; [left; reflexivity|]. exact (Ref "a"%string eq_refl eq_refl).
    + apply rd_same. right. reflexivity.
  - exact (ra_href C51_rho "c").
  - apply (ra_ref C51_rho "mask"); [right; right; left; reflexivity|]. exact (Ref "b"%string eq_refl eq_refl).
Qed.
