(** * SpecPrefix: documents cut off anywhere (C77)

    When a file ends too early or is not well-formed, the XML decoder hands out the tokens up to there, which begin some document,
    and then an error. *)
From Verif Require Export SpecPanic.

(** how many elements begin in a list of tokens *)
Definition begun (toks : list token) : nat := List.length (filter (fun t => match t with TStart _ _ => true | _ => false end) toks).
(** the elements of a document that begin in the first of its tokens, and where they stand *)
Definition elements_begun (toks : list token) (ns : list node) : list (bool * bool * (string * list attr)) :=
  firstn (begun toks) (flat_map (placed false false) ns).
