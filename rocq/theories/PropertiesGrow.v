(** * PropertiesGrow: what a longer document adds (C49) *)
From Coq Require Import Floats.SpecFloat.
From Verif Require Import ProofsGrow ProofsF64 PropertiesEnd ExPath.
Local Open Scope nat_scope.

(** C49.  Everything in the document parsed from some tokens is in the document parsed from these tokens
    followed by any others: paths, titles and descriptions in the same order with new ones behind them
    (the last title and the last description can go on), the ids of masks, gradients and definitions, and
    the lines of the log.  For every token stream and continuation, however either parse ends. *)
Theorem C49_grows : forall (E : Env) (fuel : nat) (mode : errorMode) (toks more : list token) (tm tm' : term) (s s' : svg E) err err' log log',
  parse fuel mode toks tm = PSvg s err log -> parse fuel mode (toks ++ more) tm' = PSvg s' err' log' -> grows_to s s' /\ begins log log'.
Proof. exact @parse_more. Qed.
Print Assumptions C49_grows.
(** What follows the place of an error, of a panic or of an endless reference is never looked at. *)
Theorem C49_stops : forall (E : Env) (fuel : nat) (mode : errorMode) (toks more : list token) (tm : term) (r : presult E),
  parse fuel mode toks TermEOF = r -> match r with PSvg _ (Some _) _ | PPanic | PNoFuel => True | _ => False end ->
  parse fuel mode (toks ++ more) tm = r.
Proof. exact @parse_stopped. Qed.
Print Assumptions C49_stops.

Definition C49_toks : list token :=
  [TStart "svg" []; TStart "title" []; TChar "dra"]%string.
Definition C49_more : list token :=
  [TChar "wing"; TEnd "title"; TStart "blink" []; TEnd "blink"; TStart "mask" [mkAttr "id" "m"]; TEnd "mask";
   TStart "line" [mkAttr "x2" "5"]; TEnd "line"; TStart "line" [mkAttr "x1" "1.2.3"]]%string.
Definition C49_rest : list token := [TEnd "line"; TStart "title" []; TEnd "title"]%string.
Definition C49_view (r : presult D) : list string * nat * list string * list string * bool :=
  match r with PSvg s e log => (sv_titles s, List.length (sv_paths s), map fst (sv_masks s), log, match e with Some _ => true | None => false end) | _ => ([], 0, [], [], false) end.
Example C49_example :
  C49_view (parse 1 WarnErrorMode C49_toks TermEOF) = (["dra"], 0, [], [], false)%string
  /\ C49_view (parse 1 WarnErrorMode (C49_toks ++ C49_more) TermEOF) = (["drawing"], 1, ["m"], ["Cannot process svg element blink"], true)%string
  /\ C49_view (parse 1 WarnErrorMode (C49_toks ++ C49_more ++ C49_rest) TermEOF) = C49_view (parse 1 WarnErrorMode (C49_toks ++ C49_more) TermEOF).
Proof. vm_compute. auto. Qed.
(** The ids stay, what they name does not: a later mask with the same id takes the place of the first. *)
Definition C49_mask (n : string) : list token := [TStart "mask" [mkAttr "id" "m"; mkAttr "width" n]; TEnd "mask"]%string.
Definition C49_width (r : presult D) : option (F D) := match r with PSvg s _ _ => option_map mk_w (mget "m"%string (sv_masks s)) | _ => None end.
Definition C49_is (n : Z) (r : presult D) : bool := match C49_width r with Some w => feqb D w (fnum D n) | None => false end.
Theorem C49_values_refuted :
  C49_is 1 (parse 1 StrictErrorMode (TStart "svg" [] :: C49_mask "1")%string TermEOF) = true
  /\ C49_is 2 (parse 1 StrictErrorMode (TStart "svg" [] :: C49_mask "1" ++ C49_mask "2")%string TermEOF) = true.
Proof. vm_compute. exact (conj eq_refl eq_refl). Qed.
Print Assumptions C49_values_refuted.
