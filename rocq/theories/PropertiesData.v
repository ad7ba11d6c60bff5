(** * PropertiesData: exactly which texts are path data, and what they draw (C71) *)
From Coq Require Import ZArith Lia.
From Verif Require Import F64 SpecRunes SpecData ProofsRunes ProofsData ProofsF64 ExTree.
Local Open Scope string_scope.

(** ** C71: path data over any text *)
(** A text is accepted as path data exactly when each of its commands is right; otherwise there is an error.  Nothing is asked of
    the text before the first command. *)
Theorem C71_accepted : forall (E : Env) (cs : list N) (c : pcur E), plain_data E cs ->
  (snd (compilePath (utf8 cs) c) = Ret tt <-> right_data E (pc_mode c) cs)
  /\ (~ right_data E (pc_mode c) cs -> exists e, snd (compilePath (utf8 cs) c) = Err e).
Proof. exact (@data_accepted). Qed.
Print Assumptions C71_accepted.
(** The path it draws is the one that its commands draw by the pen semantics of C01, however they are spelled (arcs: C07, C70). *)
Theorem C71_draws : forall (E : Env), (forall a b, fadd E a b = fadd E b a) -> forall (cs : list N) (ks : list (cmd E)) (c : pcur E),
  plain_data E cs -> reads E cs ks -> closes_open E false ks = true ->
  exists c', compilePath (utf8 cs) c = (c', Ret tt) /\ pc_path c' = draws E (pc_curX c, pc_curY c) ks /\ pc_log c' = pc_log c.
Proof. exact (@data_draws). Qed.
Print Assumptions C71_draws.
(** In a document: a path element that is drawn and whose data is not right is not accepted. *)
Theorem C71_document : forall (E : Env) (fuel : nat) (mode : errorMode) pre attrs post (tm : term) (cs : list N),
  flat_defs pre -> is_definition pre "path" = false -> List.In (mkAttr "d" (utf8 cs)) attrs -> plain_data E cs -> ~ right_data E mode cs ->
  forall s log, parse (E := E) fuel mode (pre ++ TStart "path" attrs :: post) tm <> PSvg s None log.
Proof. exact (@wrong_data_fails). Qed.
Print Assumptions C71_document.
(** Right data makes it a figure of the documents of C42, and only right data does. *)
Theorem C71_figure : forall (E : Env) (mode : errorMode) (m : nat) (vb : bounds E) (off : point E) attrs (cs : list N),
  attr_once "d" attrs (utf8 cs) -> plain_data E cs ->
  (right_data E mode cs <-> exists p, alone E mode m vb off "path" attrs p).
Proof. exact (@right_data_alone). Qed.
Print Assumptions C71_figure.
(** And the figure is the one its commands draw. *)
Theorem C71_figure_draws : forall (E : Env), (forall a b, fadd E a b = fadd E b a) -> forall (mode : errorMode) (m : nat) (vb : bounds E) (off : point E) attrs (cs : list N) (ks : list (cmd E)) p,
  attr_once "d" attrs (utf8 cs) -> plain_data E cs -> reads E cs ks -> closes_open E false ks = true ->
  alone E mode m vb off "path" attrs p -> p = draws E off ks.
Proof. exact (@data_figure). Qed.
Print Assumptions C71_figure_draws.

(** ** Concrete cases *)
Definition letters (s : string) : list N := map N_of_ascii (list_ascii_of_string s).
Definition all_data (cs : list N) : bool :=
  forallb (fun r => ((r <? 55296) || (57344 <=? r) && (r <? 1114112)) && Bool.eqb (isNumber D r) (decimal_digit r)
                    && Bool.eqb (isLetter D r) (begins_command r || (r =? 101)))%N cs.
Lemma all_data_plain cs : all_data cs = true -> plain_data D cs.
Proof.
  intros H. unfold all_data in H. rewrite forallb_forall in H. apply Forall_forall. intros r Hr. specialize (H r Hr).
  apply andb_prop in H as [H H3]. apply andb_prop in H as [H1 H2]. apply Bool.eqb_prop in H2. apply Bool.eqb_prop in H3. split; [|split; [exact H2|exact H3]]. unfold scalar.
  rewrite orb_true_iff, andb_true_iff, !N.ltb_lt, N.leb_le in H1. exact H1.
Qed.
Definition right_b (mode : errorMode) (c : N * list N) : bool :=
  let words := number_words (snd c) in
  forallb (fun w => match parseFloat D w with Some _ => true | None => false end) words
  && match set_size (ascii_of_N (fst c)) with
     | Some _ => good_count (ascii_of_N (fst c)) (List.length words)
     | None => match mode with StrictErrorMode => false | _ => true end
     end.
Lemma right_b_right mode c : right_b mode c = true <-> right_command D mode c.
Proof.
  unfold right_b, right_command. rewrite andb_true_iff, forallb_forall, Forall_forall. split; intros [H1 H2]; split.
  - intros w Hw. specialize (H1 w Hw). destruct (parseFloat D w); discriminate.
  - destruct (set_size _); [exact H2|]. destruct mode; discriminate.
  - intros w Hw. specialize (H1 w Hw). destruct (parseFloat D w); [reflexivity|congruence].
  - destruct (set_size _); [exact H2|]. destruct mode; [reflexivity..|congruence].
Qed.
Lemma right_by mode cs : forallb (right_b mode) (snd (commands_in cs)) = true <-> right_data D mode cs.
Proof.
  unfold right_data. rewrite forallb_forall, Forall_forall. split; intros H c Hc; apply right_b_right, H, Hc.
Qed.
(** 3 euro signs and a number before M, 1, euro sign, -2.5.5, a character of four bytes, 3e-1, z *)
Definition euro_path : list N := [8364; 8364; 8364; 55; 77; 49; 8364; 45; 50; 46; 53; 46; 53; 128512; 51; 101; 45; 49; 122]%N.
Definition wrong_b (mode : errorMode) (s : string) : bool := all_data (letters s) && negb (forallb (right_b mode) (snd (commands_in (letters s)))).
Definition fine_b (mode : errorMode) (s : string) : bool := all_data (letters s) && forallb (right_b mode) (snd (commands_in (letters s))).
Example C71_accepted_example :
  plain_data D euro_path /\ right_data D StrictErrorMode euro_path
  /\ map fst (snd (commands_in euro_path)) = [77; 122]%N
  /\ map (fun c => number_words (snd c)) (snd (commands_in euro_path)) = [["1"; "-2.5"; ".5"; "3e-1"]; []]
  /\ map (fine_b StrictErrorMode) ["M1 1L2 3.H5"; "M1,1 2,2a1 1 0 1 1 5 5z"; ""; "m0 0q1 1 2 2 3 3 4 4"] = [true; true; true; true]
  /\ map (wrong_b IgnoreErrorMode) ["M1 1 2"; "M1 1z1"; "M1 1L"; "M1 1a1 1 0 11 5 5"; "M1 e"] = [true; true; true; true; true]
  /\ map (fine_b WarnErrorMode) ["M1 1x5"; "R"] = [true; true] /\ map (wrong_b StrictErrorMode) ["M1 1x5"; "R"] = [true; true].
Proof.
  split; [apply all_data_plain; vm_compute; reflexivity|]. split; [apply right_by; vm_compute; reflexivity|]. vm_compute. repeat split; reflexivity.
Qed.
(** the text draws a line from (1, -2.5) to (0.5, 0.3), and closes it *)
Definition num (w : string) : F D := match word_value D w with Some v => v | None => fnum D 0 end.
Definition euro_commands : list (cmd D) := [MoveTo false (num "1", num "-2.5") [(num ".5", num "3e-1")]; ClosePath].
Lemma num_word w : match word_value D w with Some _ => true | None => false end = true -> word_value D w = Some (num w).
Proof. unfold num. destruct (word_value D w); [reflexivity|discriminate]. Qed.
Example C71_draws_example :
  (forall a b, fadd D a b = fadd D b a) /\ reads D euro_path euro_commands /\ closes_open D false euro_commands = true
  /\ draws D (fnum D 0, fnum D 0) euro_commands = [OpMoveTo (64, -160)%Z; OpLineTo (32, 19)%Z; OpClose]
  /\ attr_once "d" [mkAttr "fill" "red"; mkAttr "d" (utf8 euro_path)] (utf8 euro_path).
Proof.
  split; [exact (F64_add_comm demoO)|]. split.
  { unfold reads. replace (snd (commands_in euro_path)) with [(77%N, [49; 8364; 45; 50; 46; 53; 46; 53; 128512; 51; 101; 45; 49]%N); (122%N, [])] by reflexivity.
    constructor; [split; [left; reflexivity|]|constructor; [split; [right; split; reflexivity|constructor]|constructor]].
    replace (number_words _) with ["1"; "-2.5"; ".5"; "3e-1"] by (vm_compute; reflexivity). cbn [args flat_map p1 app fst snd].
    repeat (constructor; [apply num_word; vm_compute; reflexivity|]). constructor. }
  split; [reflexivity|]. split; [vm_compute; reflexivity|].
  exists [mkAttr "fill" "red"], []. split; [reflexivity|split; reflexivity].
Qed.
Example C71_document_example :
  let pre := [TStart "svg" []; TStart "g" []] in
  flat_defs pre /\ is_definition pre "path" = false
  /\ (~ right_data D StrictErrorMode (letters "M1 1x5")) /\ right_data D WarnErrorMode (letters "M1 1x5")
  /\ plain_data D (letters "M1 1x5") /\ utf8 (letters "M1 1x5") = "M1 1x5".
Proof.
  cbv zeta. split.
  { intros p attrs q H. assert (K : List.In (TStart "defs" attrs) [TStart "svg" []; TStart "g" []]) by (rewrite H; apply in_or_app; right; left; reflexivity).
    destruct K as [K|[K|[]]]; discriminate K. }
  split; [reflexivity|]. split; [intros K; apply right_by in K; vm_compute in K; discriminate K|].
  split; [apply right_by; vm_compute; reflexivity|]. split; [apply all_data_plain; vm_compute; reflexivity|reflexivity].
Qed.
