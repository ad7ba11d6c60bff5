(** * ExShape: drawing single elements, for the examples *)
From Verif Require Export ExPath Elements SpecAttr SpecDoc.

Definition ex_box : bounds D := mkB (V 0 1) (V 0 1) (V 200 1) (V 100 1).
Definition ex_cursor : cursor D := let c := cursor0 StrictErrorMode in c_set_svg (sv_set_viewBox ex_box (c_svg c)) c.
(** the outline an element draws with a view box of 200 by 100 *)
Definition draw_element (name : string) (attrs : list attr) : option path :=
  match drawFuncs 9 name with
  | Some df => match df attrs ex_cursor with (c, Ret _) => Some (pc_path (c_pc c)) | _ => None end
  | None => None
  end.
Lemma ex_points : spells_numbers D "1,2 3-4 5 6" [V 1 1; V 2 1; V 3 1; V (-4) 1; V 5 1; V 6 1].
Proof.
  exists [(""%string, num NoSign "1" None); (","%string, num NoSign "2" None); (" "%string, num NoSign "3" None);
          (""%string, num Minus "4" None); (" "%string, num NoSign "5" None); (" "%string, num NoSign "6" None)], ""%string.
  vm_compute. auto.
Qed.
Lemma ex_len5 : length_attr (E := D) ex_box OfWidth "x1" [mkAttr "x1" "5"; mkAttr "x2" "50%"] (V 5 1).
Proof.
  cbn. exists (V 5 1). split; [|reflexivity]. exists ""%string, "5"%string, ""%string, UNone, ""%string, (V 5 1). vm_compute. auto 9.
Qed.
