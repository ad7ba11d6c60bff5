(** * SpecCalm: token streams that follow their groups

    No assumption is made on the order and nesting of the tokens.  [d]: inside <defs>; [g]: inside a gradient;
    [n]: a <defs> has been stored, so that a <use> may start definitions; [j]: the <g> elements of the current
    group of definitions that are still open; [h]: the elements of the stream that are still open; [u]: the stream
    contains a <use>, without which the groups do not matter. *)
From Verif Require Export SpecStream.

Section Follows.
Context (u : bool).
Fixpoint follows (d g n : bool) (j h : nat) (toks : list token) : bool :=
  match toks with
  | [] => true
  | TStart name attrs :: r =>
    let j0 := if String.eqb (text_attr "id" "" attrs) "" then j else 0 in
    if is_gradient name then follows d true n j (S h) r
    else if d && negb g then
      if String.eqb name "endg" then negb (u && Nat.eqb j0 0) && follows d g n (pred j0) (S h) r
      else follows d g (n || String.eqb name "defs") (if String.eqb name "g" then S j0 else j0) (S h) r
    else if String.eqb name "defs" then follows true g n j (S h) r
    else if String.eqb name "use" && n then follows d g n j (S h) r && follows true g n j (S h) r
    else follows d g n j (S h) r
  | TEnd name :: r =>
    match h with
    | O => false
    | S h' =>
      if is_gradient name then follows d false n j h' r
      else if String.eqb name "defs" then follows false g n 0 h' r
      else if String.eqb name "g" && d then negb (u && Nat.eqb j 0) && follows d g n (pred j) h' r
      else follows d g n j h' r
    end
  | _ :: r => follows d g n j h r
  end.
End Follows.
Definition uses (toks : list token) : bool :=
  existsb (fun t => match t with TStart name _ => String.eqb name "use" | _ => false end) toks.
(** every end follows a start; if there is a <use>, every end of a <g> stored in a group follows its start in
    this group *)
Definition orderly_stream (toks : list token) : bool := follows (uses toks) false false false 0 0 toks.
(** every end follows a start; [h] elements are open *)
Fixpoint balanced (h : nat) (toks : list token) : bool :=
  match toks with
  | [] => true
  | TStart _ _ :: r => balanced (S h) r
  | TEnd _ :: r => match h with O => false | S h' => balanced h' r end
  | _ :: r => balanced h r
  end.
