(** * SpecStream: references between definitions in an arbitrary token stream

    No assumption is made on the order and nesting of the tokens.  An element started inside <defs>, and not
    inside a gradient, is stored; an element with an id starts a new group.  [d]: inside <defs>; [g]: inside
    a gradient; [n]: a <defs> has been stored, so that a <use> may start definitions; [gr]: the current group. *)
From Verif Require Export SpecEnd.

Fixpoint stream_refs (d g n : bool) (gr : string) (toks : list token) : list (string * string) :=
  match toks with
  | [] => []
  | TStart name attrs :: r =>
    if is_gradient name then stream_refs d true n gr r
    else if d && negb g then
      (if String.eqb name "use" then [(group_of gr attrs, text_attr "href" "" attrs)] else [])
      ++ stream_refs d g (n || String.eqb name "defs") (group_of gr attrs) r
    else if String.eqb name "defs" then stream_refs true g n gr r
    else if String.eqb name "use" && n then stream_refs d g n gr r ++ stream_refs true g n gr r
    else stream_refs d g n gr r
  | TEnd name :: r =>
    if is_gradient name then stream_refs d false n gr r
    else if String.eqb name "defs" then stream_refs false g n "" r
    else stream_refs d g n gr r
  | _ :: r => stream_refs d g n gr r
  end.
(** the references of a whole stream *)
Definition all_refs : list token -> list (string * string) := stream_refs false false false "".
