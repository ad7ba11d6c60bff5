(** * SpecArc: elliptical arcs in path data *)
From Coq Require Import Reals.
From Flocq Require Import Core.Raux.
From Verif Require Export RealEnv SpecPath SpecDoc.

(** ** Path data with arcs *)
Section Steps.
Context (E : Env).
Notation F := (F E).
(** radii, rotation in degrees, the two flags as numbers *)
Definition arc_args := (F * F * F * F * F)%type.
(** a command of [SpecPath], or one arc *)
Inductive step := Plain (c : cmd E) | ArcTo (rel : bool) (a : arc_args) (p : point E).
Definition step_letter (k : step) : ascii :=
  match k with Plain c => letter E c | ArcTo rel _ _ => if rel then "a"%char else "A"%char end.
Definition step_args (k : step) : list F :=
  match k with
  | Plain c => args E c
  | ArcTo _ (rx, ry, rot, fa, fs) p => [rx; ry; rot; fa; fs; fst p; snd p]
  end.
Inductive spells_steps : string -> list step -> Prop :=
| spells_s_nil : spells_steps "" []
| spells_s_cons k t s ks :
    spells_numbers E t (step_args k) -> spells_steps s ks ->
    spells_steps (String (step_letter k) (t ++ s)) (k :: ks)
| spells_s_close t s ks :
    seps t = true -> spells_steps s ks -> spells_steps (String "z" (t ++ s)) (Plain ClosePath :: ks).
Fixpoint steps_close (opened : bool) (ks : list step) : bool :=
  match ks with
  | [] => true
  | Plain (MoveTo _ _ _) :: r => steps_close true r
  | Plain ClosePath :: r => opened && steps_close false r
  | _ :: r => steps_close opened r
  end.
(** What a list of steps draws: plain commands as in [SpecPath]; an arc draws some operations [o]
    and leaves the pen at some point [e], such that [arc from args to o e]. *)
Inductive drawn (arc : point E -> arc_args -> point E -> list op -> point E -> Prop) (off : point E)
  : pen E -> list step -> list op -> pen E -> Prop :=
| drawn_nil s : drawn arc off s [] [] s
| drawn_plain s c r o s' :
    drawn arc off (fst (exec E off s c)) r o s' ->
    drawn arc off s (Plain c :: r) (snd (exec E off s c) ++ o) s'
| drawn_arc s rel a p r o1 e o s' :
    arc (at_ s) a (absolute E rel (at_ s) p) o1 e ->
    drawn arc off (mkPen e (from s) NoCtrl) r o s' ->
    drawn arc off s (ArcTo rel a p :: r) (o1 ++ o) s'.
(** one or more cubic curves, the last of which ends at [q] *)
Definition ends_at (q : point E) (o : list op) : Prop :=
  exists cs b c, o = cs ++ [OpCubicTo b c (grid E q)] /\ Forall is_cubic cs.
End Steps.
Arguments Plain {E}. Arguments ArcTo {E}.

(** ** The arcs of SVG over the real numbers *)
Local Open Scope R_scope.
Definition degrees (d : R) : R := d * PI / 180.
Section Ellipse.
Context (cx cy rx ry rot : R).
(** the point at angle [t] of the ellipse with that centre, radii and rotation, and its derivative *)
Definition ell_at (t : R) : R * R :=
  (cx + rx * cos t * cos rot - ry * sin t * sin rot, cy + rx * cos t * sin rot + ry * sin t * cos rot).
Definition ell_dir (t : R) : R * R :=
  (- rx * sin t * cos rot - ry * cos t * sin rot, - rx * sin t * sin rot + ry * cos t * cos rot).
End Ellipse.
(** some ellipse with these radii and this rotation passes through both points *)
Definition fits (rx ry rot : R) (p q : R * R) : Prop :=
  exists cx cy t u, ell_at cx cy rx ry rot t = p /\ ell_at cx cy rx ry rot u = q.
(** the length, relative to the derivative, of the handles of a cubic curve spanning an angle [d] *)
Definition handle (d : R) : R := sin d * (sqrt (4 + 3 * (tan (d / 2) * tan (d / 2))) - 1) / 3.
Definition grid_R (p : R * R) : pt := (wrap32 (Ztrunc (fst p * 64)), wrap32 (Ztrunc (snd p * 64))).
(** the cubic curve from angle [t] to angle [t + d] *)
Definition piece (cx cy rx ry rot t d : R) : op :=
  let e := ell_at cx cy rx ry rot in
  let v := ell_dir rx ry rot in
  OpCubicTo (grid_R (fst (e t) + handle d * fst (v t), snd (e t) + handle d * snd (v t)))
            (grid_R (fst (e (t + d)) - handle d * fst (v (t + d)), snd (e (t + d)) - handle d * snd (v (t + d))))
            (grid_R (e (t + d))).
(** [n] equal pieces from angle [t] to angle [t + d] *)
Definition pieces (cx cy rx ry rot t d : R) (n : nat) : list op :=
  map (fun i => piece cx cy rx ry rot (t + INR i * (d / INR n)) (d / INR n)) (seq 0 n).

(** SVG 1.1, appendix F.6: the arc from [p] to [q] with radii [rx], [ry], rotated by [deg] degrees.
    The radii are scaled up by the least factor that makes the ellipse fit, the direction is given
    by [sweep] and the choice between the two arcs by [large]. *)
Definition svg_arc (p : R * R) (rx ry deg : R) (large sweep : bool) (q : R * R) (o : list op) : Prop :=
  exists k cx cy t d n,
    1 <= k /\ (forall k', 1 <= k' -> fits (k' * rx) (k' * ry) (degrees deg) p q -> k <= k')
    /\ ell_at cx cy (k * rx) (k * ry) (degrees deg) t = p
    /\ ell_at cx cy (k * rx) (k * ry) (degrees deg) (t + d) = q
    /\ (if sweep then 0 < d < 2 * PI else - (2 * PI) < d < 0)
    /\ (if large then PI <= Rabs d else Rabs d <= PI)
    /\ Rabs d < INR n * (PI / 8)
    /\ o = pieces cx cy (k * rx) (k * ry) (degrees deg) t d n.

(** the closed outline of a whole ellipse: from its rightmost point once around, in 17 pieces *)
Definition whole_ellipse (cx cy rx ry : R) : path :=
  OpMoveTo (grid_R (cx + rx, cy)) :: pieces cx cy rx ry 0 0 (- (2 * PI)) 17 ++ [OpClose].
(** sanity of these definitions: the points of [ell_at] satisfy the equation of the ellipse *)
Lemma ell_at_equation cx cy rx ry rot t : rx <> 0 -> ry <> 0 ->
  let (x, y) := ell_at cx cy rx ry rot t in
  (((x - cx) * cos rot + (y - cy) * sin rot) / rx)² + (((y - cy) * cos rot - (x - cx) * sin rot) / ry)² = 1.
Proof.
  intros Hx Hy. unfold ell_at. pose proof (sin2_cos2 rot) as H1. pose proof (sin2_cos2 t) as H2. unfold Rsqr in *.
  replace ((cx + rx * cos t * cos rot - ry * sin t * sin rot - cx) * cos rot
    + (cy + rx * cos t * sin rot + ry * sin t * cos rot - cy) * sin rot) with (rx * cos t * (sin rot * sin rot + cos rot * cos rot)) by ring.
  replace ((cy + rx * cos t * sin rot + ry * sin t * cos rot - cy) * cos rot
    - (cx + rx * cos t * cos rot - ry * sin t * sin rot - cx) * sin rot) with (ry * sin t * (sin rot * sin rot + cos rot * cos rot)) by ring.
  rewrite H1. replace (rx * cos t * 1 / rx) with (cos t) by (field; exact Hx). replace (ry * sin t * 1 / ry) with (sin t) by (field; exact Hy). rewrite Rplus_comm. exact H2.
Qed.
(** and [ell_dir] is the derivative *)
Lemma wave_derivative A B C t : derivable_pt_lim (fun u => C + A * cos u + B * sin u) t (- A * sin t + B * cos t).
Proof.
  replace (- A * sin t + B * cos t) with (0 + A * - sin t + B * cos t) by ring.
  apply (derivable_pt_lim_plus (plus_fct (fct_cte C) (mult_real_fct A cos)) (mult_real_fct B sin)).
  - apply derivable_pt_lim_plus; [apply derivable_pt_lim_const|apply derivable_pt_lim_scal, derivable_pt_lim_cos].
  - apply derivable_pt_lim_scal, derivable_pt_lim_sin.
Qed.
Lemma ell_dir_derivative cx cy rx ry rot t :
  derivable_pt_lim (fun u => fst (ell_at cx cy rx ry rot u)) t (fst (ell_dir rx ry rot t))
  /\ derivable_pt_lim (fun u => snd (ell_at cx cy rx ry rot u)) t (snd (ell_dir rx ry rot t)).
Proof.
  unfold ell_at, ell_dir. cbn [fst snd]. split.
  - eapply derivable_pt_lim_ext; [|replace (- rx * sin t * cos rot - ry * cos t * sin rot)
      with (- (rx * cos rot) * sin t + - (ry * sin rot) * cos t) by ring; apply (wave_derivative (rx * cos rot) (- (ry * sin rot)) cx)].
    intros u. cbv beta. ring.
  - eapply derivable_pt_lim_ext; [|replace (- rx * sin t * sin rot + ry * cos t * cos rot)
      with (- (rx * sin rot) * sin t + (ry * cos rot) * cos t) by ring; apply (wave_derivative (rx * sin rot) (ry * cos rot) cy)].
    intros u. cbv beta. ring.
Qed.
