(** * Properties of documents *)
From Verif Require Import SpecDoc ProofsDoc F64.

(** C13: reading whole elements, from any state, leaves the stack of inherited styles as it was *)
Theorem C13_scoping : forall (E : Env) (fuel : nat) (ns : list node), existsb (mentions "use") ns = false ->
  forall c c' : cursor E, mapM (stepToken fuel) (flat_map tokens ns) c = (c', Ret tt) -> c_stack c' = c_stack c.
Proof. exact @nodes_stack. Qed.
Print Assumptions C13_scoping.
Example C13_example :
  let ns := [Elem "svg" [mkAttr "viewBox" "0 0 9 9"; mkAttr "fill" "red"]
              [Elem "g" [mkAttr "opacity" "0.5"; mkAttr "transform" "scale(2)"]
                 [Chars "x"; Elem "line" [mkAttr "x1" "1"; mkAttr "style" "stroke:blue"] []; Misc];
               Elem "mask" [mkAttr "id" "m"] [Elem "path" [mkAttr "d" "M1 2L3 4Z"] []];
               Elem "linearGradient" [mkAttr "id" "a"] [Elem "stop" [] []]]] in
  existsb (mentions "use") ns = false
  /\ match mapM (stepToken 0) (flat_map tokens ns) (cursor0 (E := D) IgnoreErrorMode) with
     | (c, Ret _) => List.length (sv_paths (c_svg c)) =? 1 | _ => false end = true.
Proof. split; [reflexivity|vm_compute; reflexivity]. Qed.
