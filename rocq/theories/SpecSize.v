(** * SpecSize: how large documents and drawings are *)
From Verif Require Export SpecDoc.
Local Open Scope nat_scope.

Definition attr_size (a : attr) : nat := 1 + String.length (a_name a) + String.length (a_val a).
Definition attrs_size (l : list attr) : nat := list_sum (map attr_size l).
Definition token_size (t : token) : nat :=
  match t with
  | TStart n l => 1 + String.length n + attrs_size l
  | TEnd n => 1 + String.length n
  | TChar s => 1 + String.length s
  | TOther => 1
  end.
Definition doc_size (toks : list token) : nat := list_sum (map token_size toks).
(** the number of path operations of a drawing, with its masks *)
Definition path_ops {E : Env} (l : list (svgPath E)) : nat := list_sum (map (fun p => List.length (sp_path p)) l).
Definition svg_ops {E : Env} (s : svg E) : nat := path_ops (sv_paths s) + list_sum (map (fun kv => path_ops (mk_paths (snd kv))) (sv_masks s)).
(** the element is drawn from its own attributes: no reference, and points where there should be points *)
Definition self_contained (t : token) : Prop :=
  match t with
  | TStart n l => n <> "use"%string /\ (n = "polyline"%string \/ n = "polygon"%string -> has_attr "points" l = true)
  | _ => True
  end.

(** A chain of definitions, each of which draws the one before it twice. *)
Definition link (k : nat) : string := string_of_list_ascii (repeat "a"%char (S k)).
Definition twice (k : nat) : list node :=
  [Elem "use" [mkAttr "id" (link (S k)); mkAttr "href" ("#" ++ link k)] []; Elem "use" [mkAttr "href" ("#" ++ link k)] []]%string.
Definition doubling (n : nat) : list node :=
  [Elem "svg" [] [Elem "defs" [] (Elem "line" [mkAttr "id" (link 0)] [] :: flat_map twice (seq 0 n)); Elem "use" [mkAttr "href" ("#" ++ link n)] []]]%string.

(** A polyline with [k] numbers, then [m] polylines without a points attribute. *)
Fixpoint zeros (k : nat) : string := match k with O => "" | S k => " 0" ++ zeros k end.
Definition leftovers (k m : nat) : list node :=
  [Elem "svg" [] (Elem "polyline" [mkAttr "points" (zeros (2 * k))] [] :: repeat (Elem "polyline" [] []) m)]%string.
