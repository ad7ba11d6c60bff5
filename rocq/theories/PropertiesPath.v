(** * PropertiesPath: path data (C01-C05) *)
From Verif Require Import SpecPath SpecIdle ProofsPath3 ProofsPath4 ProofsIdle ExPath.
Local Open Scope go_scope.

(** C01, one path data string.  For every environment with commutative addition (float64 is one),
    every list of commands M L H V Q T C S Z, every legal spelling [s] of it and every parser
    state [c]: compiling [s] succeeds, stores exactly what the SVG rules of [SpecPath] draw (shifted
    by the offset of the enclosing use), leaves the current point where they leave it and logs
    nothing. *)
Theorem C01_path_data : forall (E : Env) (add_comm : forall a b, fadd E a b = fadd E b a)
    (s : string) (cs : list (cmd E)) (c : pcur E),
  spells E s cs -> closes_open E false cs = true ->
  exists c', compilePath s c = (c', Ret tt)
    /\ pc_path c' = draws E (pc_curX c, pc_curY c) cs
    /\ (pc_placeX c', pc_placeY c') = at_ (fst (run E (pc_curX c, pc_curY c) (pen0 E) cs))
    /\ pc_log c' = pc_log c.
Proof. exact (fun E => @compilePath_draws E). Qed.
Print Assumptions C01_path_data.

Theorem C01_path_data_float64 : forall (O : Oracles) (s : string) (cs : list (cmd (F64 O))) (c : pcur (F64 O)),
  spells (F64 O) s cs -> closes_open (F64 O) false cs = true ->
  exists c', compilePath s c = (c', Ret tt)
    /\ pc_path c' = draws (F64 O) (pc_curX c, pc_curY c) cs
    /\ (pc_placeX c', pc_placeY c') = at_ (fst (run (F64 O) (pc_curX c, pc_curY c) (pen0 (F64 O)) cs))
    /\ pc_log c' = pc_log c.
Proof. exact (fun O => @compilePath_draws (F64 O) (F64_add_comm O)). Qed.
Print Assumptions C01_path_data_float64.

Example C01_example : spells D ex_text ex_cmds /\ closes_open D false ex_cmds = true
  /\ draws D (f0 D, f0 D) ex_cmds =
     [OpMoveTo (640, 1280); OpLineTo (-224, 32); OpLineTo (-211, 32); OpClose;
      OpMoveTo (704, 1344); OpLineTo (896, 1600)]%Z.
Proof. split; [exact ex_spells|]. split; vm_compute; reflexivity. Qed.

(** What is drawn for every list of these commands without exception: a Z that closes no subpath opened
    by an M since the last Z draws nothing and does not move the current point. *)
Theorem C01_every_list : forall (E : Env) (add_comm : forall a b, fadd E a b = fadd E b a)
    (s : string) (cs : list (cmd E)) (c : pcur E), spells E s cs -> let off := (pc_curX c, pc_curY c) in
  exists c', compilePath s c = (c', Ret tt)
    /\ pc_path c' = snd (run_idle E off false (pen0 E) cs)
    /\ (pc_placeX c', pc_placeY c') = at_ (fst (run_idle E off false (pen0 E) cs)) /\ pc_log c' = pc_log c.
Proof. exact (fun E => @compilePath_idle E). Qed.
Print Assumptions C01_every_list.
(** so the path data draws what SVG says exactly when it has no such Z *)
Theorem C01_exactly : forall (E : Env) (add_comm : forall a b, fadd E a b = fadd E b a)
    (s : string) (cs : list (cmd E)) (c : pcur E), spells E s cs ->
  exists c', compilePath s c = (c', Ret tt)
    /\ (pc_path c' = draws E (pc_curX c, pc_curY c) cs <-> closes_open E false cs = true).
Proof. exact (fun E => @compilePath_exact E). Qed.
Print Assumptions C01_exactly.
(** C01 as stated is false: M1 2L3 4ZL5 6Z lacks the second close, ... *)
Theorem C01_close_refuted : forall (O : Oracles) (p q r : point (F64 O)) (s : string) (c : pcur (F64 O)),
  let cs := [MoveTo false p []; LineTo false q []; ClosePath; LineTo false r []; ClosePath] in
  spells (F64 O) s cs ->
  exists c', compilePath s c = (c', Ret tt) /\ pc_path c' <> draws (F64 O) (pc_curX c, pc_curY c) cs
    /\ (pc_placeX c', pc_placeY c') = r.
Proof. exact (fun O p q r s c => second_close (F64_add_comm O) p q r s c). Qed.
Print Assumptions C01_close_refuted.
Definition twice : list (cmd D) :=
  [MoveTo false (V 1 1, V 2 1) []; LineTo false (V 3 1, V 4 1) []; ClosePath; LineTo false (V 5 1, V 6 1) []; ClosePath].
Example C01_close_example : spells D "M1 2L3 4ZL5 6Z" twice.
Proof.
  exists ""%string, "M1 2L3 4ZL5 6Z"%string. split; [reflexivity|]. split; [reflexivity|]. unfold twice.
  apply (spells_cons D (MoveTo false (V 1 1, V 2 1) []) "1 2" "L3 4ZL5 6Z").
  { exists [(""%string, num NoSign "1" None); (" "%string, num NoSign "2" None)], ""%string. vm_compute. auto. }
  apply (spells_cons D (LineTo false (V 3 1, V 4 1) []) "3 4" "ZL5 6Z").
  { exists [(""%string, num NoSign "3" None); (" "%string, num NoSign "4" None)], ""%string. vm_compute. auto. }
  apply (spells_cons D ClosePath "" "L5 6Z"). { exists [], ""%string. repeat split. }
  apply (spells_cons D (LineTo false (V 5 1, V 6 1) []) "5 6" "Z").
  { exists [(""%string, num NoSign "5" None); (" "%string, num NoSign "6" None)], ""%string. vm_compute. auto. }
  apply (spells_cons D ClosePath "" ""). { exists [], ""%string. repeat split. }
  apply spells_nil.
Qed.
(** ... and exponents written E or e+ are rejected, in every state *)
Theorem C01_exponent_refuted : forall (O : Oracles) (c : pcur (F64 O)),
  (exists c', compilePath "M1E1 2" c = (c', Err ErrParamMismatch))
  /\ (exists c' e, compilePath "M1e+1 2" c = (c', Err e)).
Proof. exact @exponents. Qed.
Print Assumptions C01_exponent_refuted.
Example C01_exponent_example : parseFloat D "1E1" = parseFloat D "10" /\ parseFloat D "1e+1" = parseFloat D "10" /\ is_some (parseFloat D "10") = true.
Proof. vm_compute. auto. Qed.

(** C02 *)
Theorem C02_number_lists : forall (E : Env) (s : string) (vs : list (F E)) (c : pcur E),
  spells_numbers E s vs -> getPoints s c = (set_points vs c, Ret tt).
Proof. exact (fun E s vs c H => eq_trans (getPoints_numbers s c) (f_equal (fun p => (set_points (fst p) c, snd p)) (numbers_spelled s vs H))). Qed.
Print Assumptions C02_number_lists.

Example C02_example : spells_numbers D "-3.5.5 +1,
7e-2" [V (-7) 2; V 1 2; V 1 1; V 7 100].
Proof.
  exists [(""%string, num Minus "3" (Some "5"%string)); (""%string, num NoSign "" (Some "5"%string));
          (" "%string, num Plus "1" None); (",
"%string, mkNum NoSign "7" None (Some (true, "2"%string)))], ""%string. vm_compute. auto.
Qed.

(** C03: a good prefix [cs], then the letter [k] with the wrong number of arguments [vs], then
    anything that starts a new command *)
Theorem C03_wrong_count : forall (E : Env) (add_comm : forall a b, fadd E a b = fadd E b a)
    lead body cs k sz t vs rest (c : pcur E),
  seps lead = true -> spells_commands E body cs -> closes_open E false cs = true ->
  set_size k = Some sz -> spells_numbers E t vs -> good_count k (length vs) = false ->
  match rest with
  | EmptyString => True
  | String a _ => is_alpha a = true /\ a <> "e"%char
  end ->
  exists c', compilePath (lead ++ body ++ String k (t ++ rest)) c = (c', Err ErrParamMismatch)
    /\ pc_path c' = draws E (pc_curX c, pc_curY c) cs /\ pc_log c' = pc_log c.
Proof. exact (fun E => @compilePath_bad_count E). Qed.
Print Assumptions C03_wrong_count.

Example C03_example : exists body t, spells_commands D body [MoveTo false (V 1 1, V 2 1) []]
  /\ spells_numbers D t [V 3 1] /\ set_size "L" = Some 2 /\ good_count "L" 1 = false.
Proof.
  exists "M1 2"%string, "3"%string. split; [|split; [|vm_compute; auto]].
  - apply (spells_cons D (MoveTo false (V 1 1, V 2 1) []) "1 2" ""); [|apply spells_nil].
    exists [(""%string, num NoSign "1" None); (" "%string, num NoSign "2" None)], ""%string. vm_compute. auto.
  - exists [(""%string, num NoSign "3" None)], ""%string. vm_compute. auto.
Qed.

(** C04: two parser states that agree on the use offset and the error mode, whatever else they
    hold: same outcome, same path, same lines added to the log *)
Theorem C04_history : forall (E : Env) (s : string) (c1 c2 : pcur E),
  pc_curX c1 = pc_curX c2 -> pc_curY c1 = pc_curY c2 -> pc_mode c1 = pc_mode c2 ->
  snd (compilePath s c1) = snd (compilePath s c2)
  /\ pc_path (fst (compilePath s c1)) = pc_path (fst (compilePath s c2))
  /\ exists d, pc_log (fst (compilePath s c1)) = pc_log c1 ++ d
            /\ pc_log (fst (compilePath s c2)) = pc_log c2 ++ d.
Proof. exact (fun E => @compilePath_history E). Qed.
Print Assumptions C04_history.

(** a state in the middle of a smooth curve, and a fresh one *)
Example C04_example : exists c1 c2 : pcur D,
  pc_curX c1 = pc_curX c2 /\ pc_curY c1 = pc_curY c2 /\ pc_mode c1 = pc_mode c2
  /\ pc_path c1 <> pc_path c2 /\ pc_points c1 <> pc_points c2 /\ pc_lastKey c1 <> pc_lastKey c2
  /\ pc_path (fst (compilePath "M1 1T2 2k" c1)) = [OpMoveTo (64, 64); OpQuadTo (64, 64) (128, 128)]%Z
  /\ pc_log (fst (compilePath "M1 1T2 2k" c1)) = ["Ignoring svg command k"%string].
Proof.
  exists (fst (compilePath "M5 5Q6 6 7 7" (pc0 WarnErrorMode))), (pc0 WarnErrorMode).
  vm_compute. repeat split; try discriminate; try reflexivity.
Qed.

(** C05: for every byte string and every parser state, a normal return or an error *)
Theorem C05_path_data_never_panics : forall (E : Env) (s : string) (c : pcur E),
  match snd (compilePath s c) with Ret _ | Err _ => True | Panic | NoFuel => False end.
Proof. exact (fun E => @compilePath_fine E). Qed.
Print Assumptions C05_path_data_never_panics.

Theorem C05_number_lists_never_panic : forall (E : Env) (s : string) (c : pcur E),
  match snd (getPoints s c) with Ret _ | Err _ => True | Panic | NoFuel => False end.
Proof. exact (fun E => @getPoints_fine E). Qed.
Print Assumptions C05_number_lists_never_panic.
