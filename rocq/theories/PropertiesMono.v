(** * PropertiesMono: what acceptance does not depend on (C75) *)
From Coq Require Import ZArith Reals Lia.
From Flocq Require Import Core BinarySingleNaN.
From Verif Require Import F64 RealEnv SpecEnd SpecValid ProofsStyle ProofsAngle ProofsMono ExPath PropertiesEnd PropertiesLocal PropertiesValid.
Local Open Scope string_scope.

(** ** C75: texts decide *)
(** Where more texts are numbers, more names are colours, and the mode is not stricter, every document that was accepted still is.
    Nothing else of the arithmetic matters: neither what the numbers are, nor how they are rounded, added, compared or converted.
    The documents and the condition on [raise_angle] are those of C74. *)
Theorem C75_more : forall (E1 E2 : Env) (mode1 mode2 : errorMode) (fuel1 fuel2 k1 k2 : nat),
  (forall y1 x1 y2 x2 f, k1 <= f -> raise_angle (E := E1) f (fatan2 E1 y1 x1) (fatan2 E1 y2 x2) <> NoFuel) -> k1 <= fuel1 ->
  (forall y1 x1 y2 x2 f, k2 <= f -> raise_angle (E := E2) f (fatan2 E2 y1 x1) (fatan2 E2 y2 x2) <> NoFuel) -> k2 <= fuel2 ->
  lower_url E1 -> lower_url E2 ->
  (forall w, parseFloat E1 w <> None -> parseFloat E2 w <> None) -> (forall w, colorname E1 w <> None -> colorname E2 w <> None) ->
  (mode2 = StrictErrorMode -> mode1 = StrictErrorMode) ->
  forall (ns : list node), forallb (well_nested false false) ns = true -> flat_map elements_of ns <> []%list ->
  Forall ascii_attrs (flat_map elements_of ns) ->
  accepts E1 fuel1 mode1 ns -> accepts E2 fuel2 mode2 ns.
Proof. exact accepted_mono. Qed.
Print Assumptions C75_more.
(** Rounding never decides: with the numbers of Go a document is accepted exactly when it is in exact arithmetic. *)
Theorem C75_rounding : forall (O : Oracles) (Q : ROracles) (mode : errorMode) (fuel1 fuel2 : nat) (ns : list node),
  angles O -> 1 <= fuel1 -> 1 <= fuel2 -> lower_url (F64 O) -> lower_url (RealEnv Q) ->
  (forall w, parseFloat (F64 O) w = None <-> r_parse Q w = None) -> (forall w, o_colorname O w = None <-> r_colorname Q w = None) ->
  forallb (well_nested false false) ns = true -> flat_map elements_of ns <> []%list -> Forall ascii_attrs (flat_map elements_of ns) ->
  (accepts (F64 O) fuel1 mode ns <-> accepts (RealEnv Q) fuel2 mode ns).
Proof.
  intros O Q mode fuel1 fuel2 ns Ha H1 H2 U1 U2 Hp Hc W N A. split.
  - apply (accepted_mono (F64 O) (RealEnv Q) mode mode fuel1 fuel2 1 1 (turns_F64 O Ha) H1 (turns_real Q) H2 U1 U2); try assumption; try tauto; intros w K L; apply K; [apply Hp|apply Hc]; exact L.
  - apply (accepted_mono (RealEnv Q) (F64 O) mode mode fuel2 fuel1 1 1 (turns_real Q) H2 (turns_F64 O Ha) H1 U2 U1); try assumption; try tauto; intros w K L; apply K; [apply Hp|apply Hc]; exact L.
Qed.
Print Assumptions C75_rounding.
(** Two platforms that differ in sin, cos, tan, atan2 and in what they convert to integers accept the same documents. *)
Theorem C75_platforms : forall (O1 O2 : Oracles) (mode : errorMode) (fuel1 fuel2 : nat) (ns : list node),
  angles O1 -> angles O2 -> 1 <= fuel1 -> 1 <= fuel2 -> lower_url (F64 O1) -> lower_url (F64 O2) ->
  (forall w, o_colorname O1 w = None <-> o_colorname O2 w = None) ->
  forallb (well_nested false false) ns = true -> flat_map elements_of ns <> []%list -> Forall ascii_attrs (flat_map elements_of ns) ->
  (accepts (F64 O1) fuel1 mode ns <-> accepts (F64 O2) fuel2 mode ns).
Proof.
  intros O1 O2 mode fuel1 fuel2 ns A1 A2 H1 H2 U1 U2 Hc W N A. split.
  - apply (accepted_mono (F64 O1) (F64 O2) mode mode fuel1 fuel2 1 1 (turns_F64 O1 A1) H1 (turns_F64 O2 A2) H2 U1 U2); try assumption; try tauto; intros w K L; apply K, Hc; exact L.
  - apply (accepted_mono (F64 O2) (F64 O1) mode mode fuel2 fuel1 1 1 (turns_F64 O2 A2) H2 (turns_F64 O1 A1) H1 U2 U1); try assumption; try tauto; intros w K L; apply K, Hc; exact L.
Qed.
Print Assumptions C75_platforms.
(** A document accepted in strict mode is accepted in every mode; to ignore errors or to warn of them makes no difference. *)
Theorem C75_modes : forall (O : Oracles) (mode1 mode2 : errorMode) (fuel1 fuel2 : nat) (ns : list node),
  angles O -> 1 <= fuel1 -> 1 <= fuel2 -> lower_url (F64 O) -> (mode1 = StrictErrorMode \/ mode2 <> StrictErrorMode) ->
  forallb (well_nested false false) ns = true -> flat_map elements_of ns <> []%list -> Forall ascii_attrs (flat_map elements_of ns) ->
  accepts (F64 O) fuel1 mode1 ns -> accepts (F64 O) fuel2 mode2 ns.
Proof.
  intros O mode1 mode2 fuel1 fuel2 ns Ha H1 H2 U M W N A.
  apply (accepted_mono (F64 O) (F64 O) mode1 mode2 fuel1 fuel2 1 1 (turns_F64 O Ha) H1 (turns_F64 O Ha) H2 U U); try assumption; tauto.
Qed.
Print Assumptions C75_modes.

(** ** Concrete cases *)
(** exact arithmetic that reads the numbers Go reads and knows the same colours *)
Definition demoE : ROracles := {| r_fmt := fun _ => ""; r_parse := fun w => match sf_parse w with Some x => Some (SF2R radix2 x) | None => None end; r_f32 := IZR;
  r_isLetterU := fun _ => false; r_isNumberU := fun _ => false; r_toLowerU := fun s => s; r_colorname := o_colorname demoA; r_growcap := fun n => n |}.
Lemma lower_exact : lower_url (RealEnv demoE).
Proof. exact lower_demo. Qed.
(** the document of C74 is accepted in exact arithmetic in any mode, and the one with a wrong colour in none *)
Example C75_example :
  (forall w, parseFloat (F64 demoA) w = None <-> r_parse demoE w = None) /\ (forall w, o_colorname demoA w = None <-> r_colorname demoE w = None)
  /\ accepts (RealEnv demoE) 1 StrictErrorMode (valid_doc "#f0c") /\ accepts (F64 demoA) 1 WarnErrorMode (valid_doc "#f0c")
  /\ ~ accepts (RealEnv demoE) 1 IgnoreErrorMode (valid_doc "#12").
Proof.
  assert (P : forall w, parseFloat (F64 demoA) w = None <-> r_parse demoE w = None).
  { intros w. cbn [parseFloat F64 r_parse demoE]. destruct (sf_parse w); split; intros H; (discriminate || reflexivity). }
  assert (C : forall w, o_colorname demoA w = None <-> r_colorname demoE w = None) by (intros w; reflexivity).
  destruct C74_example as (Ha & U & W & N & A & _ & S & _).
  split; [exact P|]. split; [exact C|]. split; [|split].
  - apply (C75_rounding demoA demoE StrictErrorMode 1 1 (valid_doc "#f0c") Ha (le_n 1) (le_n 1) U lower_exact P C W N A). exact S.
  - exact (C75_modes demoA StrictErrorMode WarnErrorMode 1 1 (valid_doc "#f0c") Ha (le_n 1) (le_n 1) U (or_introl eq_refl) W N A S).
  - intros K. apply (proj2 (proj2 C74_wrong_example)).
    apply (C75_rounding demoA demoE IgnoreErrorMode 1 1 (valid_doc "#12") Ha (le_n 1) (le_n 1) U lower_exact P C eq_refl ltac:(discriminate) (ascii_all (flat_map elements_of (valid_doc "#12")) eq_refl)). exact K.
Qed.
(** strict mode refuses what the others accept *)
Example C75_strict_example :
  accepts (F64 demoA) 1 WarnErrorMode [Elem "svg" [] [Elem "star" [] []]] /\ accepts (F64 demoA) 1 IgnoreErrorMode [Elem "svg" [] [Elem "star" [] []]]
  /\ ~ accepts (F64 demoA) 1 StrictErrorMode [Elem "svg" [] [Elem "star" [] []]].
Proof.
  split; [eexists; apply said_of; vm_compute; reflexivity|]. split; [eexists; apply said_of; vm_compute; reflexivity|].
  intros A. apply (C74_float64 demoA StrictErrorMode 1 [Elem "svg" [] [Elem "star" [] []]] (proj1 C28_example) (le_n 1) lower_demo eq_refl ltac:(discriminate) (ascii_all [("svg", []%list); ("star", []%list)] eq_refl)) in A.
  rewrite Forall_forall in A. assert (K := vt_name _ _ _ (A (false, false, ("star", []%list)) ltac:(cbn; tauto)) eq_refl). destruct K as [K|K]; [|exact (K eq_refl)].
  revert K. cbn. intuition discriminate.
Qed.
