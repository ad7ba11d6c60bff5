(** * PropertiesMode: the error modes (C06) *)
From Verif Require Import ProofsMode ExTree.
Local Open Scope go_scope.

(** C06: for every token stream, well nested or not, every fuel and every outcome *)
Theorem C06_strict : forall (E : Env) (fuel : nat) (mode : errorMode) (toks : list token) (s : svg E) (log : list string),
  parse fuel StrictErrorMode toks TermEOF = PSvg s None log -> parse fuel mode toks TermEOF = PSvg s None log.
Proof. exact @strict_same. Qed.
Print Assumptions C06_strict.
(** a result without its log; [PNil], panic and divergence have none *)
Definition without_log {E} (r : presult E) : presult E := match r with PSvg s e _ => PSvg s e [] | r => r end.
Theorem C06_lenient : forall (E : Env) (fuel : nat) (mode1 mode2 : errorMode) (toks : list token) (tm : term),
  mode1 <> StrictErrorMode -> mode2 <> StrictErrorMode ->
  without_log (parse (E := E) fuel mode1 toks tm) = without_log (parse fuel mode2 toks tm).
Proof. exact @lenient_same. Qed.
Print Assumptions C06_lenient.
Theorem C06_quiet : forall (E : Env) (fuel : nat) (mode : errorMode) (toks : list token) (tm : term) (s : svg E) (e : option goerr) (log : list string),
  mode <> WarnErrorMode -> parse fuel mode toks tm = PSvg s e log -> log = [].
Proof. exact @quiet_modes. Qed.
Print Assumptions C06_quiet.

(** unsupported: an element, a command of a path and a value of a style *)
Definition C06_doc (extra : list node) : list token := tokens (Elem "svg" [] ([Elem "path" [mkAttr "d" "M1 2L3 4"] []] ++ extra))%string.
Definition C06_extra : list node :=
  [Elem "text" [] []; Elem "path" [mkAttr "d" "M1 2x5L3 4"] []; Elem "g" [mkAttr "fill-rule" "odd"] [Elem "line" [mkAttr "x2" "5"] []]]%string.
Definition seen (r : presult D) : option (list path * option goerr * list string) :=
  match r with PSvg s e log => Some (map sp_path (sv_paths s), e, log) | _ => None end.
Example C06_example :
  seen (parse 1 StrictErrorMode (C06_doc []) TermEOF) = Some ([[OpMoveTo (64, 128); OpLineTo (192, 256)]], None, [])%Z
  /\ seen (parse 1 WarnErrorMode (C06_doc C06_extra) TermEOF)
     = Some ([[OpMoveTo (64, 128); OpLineTo (192, 256)]; [OpMoveTo (64, 128); OpLineTo (192, 256)]; [OpMoveTo (0, 0); OpLineTo (320, 0)]], None,
             ["Cannot process svg element text"; "Ignoring svg command x"; "unsupported value 'odd' for <fill-rule>"]%string)%Z
  /\ seen (parse 1 IgnoreErrorMode (C06_doc C06_extra) TermEOF)
     = Some ([[OpMoveTo (64, 128); OpLineTo (192, 256)]; [OpMoveTo (64, 128); OpLineTo (192, 256)]; [OpMoveTo (0, 0); OpLineTo (320, 0)]], None, [])%Z
  /\ seen (parse 1 StrictErrorMode (C06_doc C06_extra) TermEOF)
     = Some ([[OpMoveTo (64, 128); OpLineTo (192, 256)]], Some (ErrMsg "Cannot process svg element text"), [])%Z.
Proof. vm_compute. auto. Qed.
