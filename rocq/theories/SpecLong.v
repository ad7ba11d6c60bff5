(** * SpecLong: path data written out in full

    Relative commands, H, V, S, T and several argument sets after one letter are shorthands: the same drawing
    has a longhand with only M, L, Q, C and Z, absolute, with one argument set each. *)
From Verif Require Import Geom.
From Verif Require Export SpecPath.

Section Long.
Context (E : Env).
Notation cmd := (cmd E).
Notation pen := (pen E).
(** one command for each argument set, the pen being moved by each *)
Fixpoint each {A} (f : pen -> A -> pen * list op) (g : pen -> A -> cmd) (s : pen) (l : list A) : list cmd :=
  match l with [] => [] | a :: r => g s a :: each f g (fst (f s a)) r end.
Notation origin := (fnum E 0, fnum E 0).
Definition longhand_of (s : pen) (c : cmd) : list cmd :=
  match c with
  | MoveTo rel p ps =>
    let p := absolute E rel (at_ s) p in
    MoveTo false p [] :: each (line E origin rel) (fun s p => LineTo false (absolute E rel (at_ s) p) []) (mkPen p p NoCtrl) ps
  | LineTo rel p ps => each (line E origin rel) (fun s p => LineTo false (absolute E rel (at_ s) p) []) s (p :: ps)
  | HLineTo rel x xs => each (hline E origin rel) (fun s x => LineTo false (if rel then fadd E (fst (at_ s)) x else x, snd (at_ s)) []) s (x :: xs)
  | VLineTo rel y ys => each (vline E origin rel) (fun s y => LineTo false (fst (at_ s), if rel then fadd E (snd (at_ s)) y else y) []) s (y :: ys)
  | QuadTo rel q qs => each (quad E origin rel) (fun s q => QuadTo false (absolute E rel (at_ s) (fst q), absolute E rel (at_ s) (snd q)) []) s (q :: qs)
  | SmoothQuadTo rel p ps =>
    each (smooth_quad E origin rel)
      (fun s p => QuadTo false (match last_ctrl s with QuadCtrl c => mirror E (at_ s) c | _ => at_ s end, absolute E rel (at_ s) p) []) s (p :: ps)
  | CubicTo rel q qs =>
    each (cubic E origin rel)
      (fun s q => CubicTo false (absolute E rel (at_ s) (fst (fst q)), absolute E rel (at_ s) (snd (fst q)), absolute E rel (at_ s) (snd q)) []) s (q :: qs)
  | SmoothCubicTo rel q qs =>
    each (smooth_cubic E origin rel)
      (fun s q => CubicTo false (match last_ctrl s with CubicCtrl c => mirror E (at_ s) c | _ => at_ s end, absolute E rel (at_ s) (fst q), absolute E rel (at_ s) (snd q)) [])
      s (q :: qs)
  | ClosePath => [ClosePath]
  end.
Fixpoint longhand (s : pen) (cs : list cmd) : list cmd :=
  match cs with [] => [] | c :: r => longhand_of s c ++ longhand (fst (exec E origin s c)) r end.
(** only M L Q C Z, absolute, one argument set each *)
Definition long_cmd (c : cmd) : bool :=
  match c with
  | MoveTo false _ [] | LineTo false _ [] | QuadTo false _ [] | CubicTo false _ [] | ClosePath => true
  | _ => false
  end.
End Long.
