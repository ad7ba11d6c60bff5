(** * SpecIdle: path data in which a Z may close nothing *)
From Verif Require Export Env Geom SpecPath.
Section Idle.
Context (E : Env) (off : point E).
(** As [run], but a ClosePath that closes no subpath opened by a MoveTo since the last ClosePath draws
    nothing and stays where it is; it still ends the reflection of control points. *)
Fixpoint run_idle (opened : bool) (s : pen E) (cs : list (cmd E)) : pen E * list op :=
  match cs with
  | [] => (s, [])
  | c :: r =>
    let '(s1, o1) := match c with
                     | ClosePath => if opened then exec E off s c else (mkPen (at_ s) (from s) NoCtrl, [])
                     | _ => exec E off s c
                     end in
    let '(s2, o2) := run_idle (match c with MoveTo _ _ _ => true | ClosePath => false | _ => opened end) s1 r in
    (s2, o1 ++ o2)
  end.
End Idle.
