(** * PropertiesEndless: exactly when drawing a parsed document with gg ends (C36) *)
From Verif Require Import ProofsEndless ExPath ExDraw PropertiesDraw.
Local Open Scope string_scope.

(** A parsed document is drawn without end exactly when one of its paths is limited by a mask from which
    the masks of paths of masks lead into a circle; otherwise as many nested calls as there are masks,
    and one more, are enough. *)
Theorem C36_gg_ends : forall (E : Env) fuel mode toks tm (s : svg E) err log opts, parse fuel mode toks tm = PSvg s err log ->
  (endless s -> forall fuel', ggDrawSvg fuel' s opts = NoFuel)
  /\ (~ endless s -> forall fuel', List.length (sv_masks s) < fuel' -> exists calls, ggDrawSvg fuel' s opts = Ret calls).
Proof. exact @gg_parsed_ends. Qed.
Print Assumptions C36_gg_ends.

(** a path masked by c, whose path is masked by a, whose second path is masked by b, and back to a *)
Definition C36_round : node := Elem "svg" []
  [Elem "mask" [mkAttr "id" "a"] [Elem "line" [mkAttr "x2" "5"] []; Elem "line" [mkAttr "x2" "5"; mkAttr "mask" "url(#b)"] []];
   Elem "mask" [mkAttr "id" "b"] [Elem "line" [mkAttr "x2" "5"; mkAttr "mask" "url(#a)"] []];
   Elem "mask" [mkAttr "id" "c"] [Elem "line" [mkAttr "x2" "5"; mkAttr "mask" "url(#a)"] []];
   Elem "line" [mkAttr "x2" "5"; mkAttr "mask" "url(#c)"] []].
(** does the [n]th path of the mask [a] have [b] as its last mask? *)
Definition refs {E} (s : svg E) (a : string) (n : nat) (b : string) : bool :=
  match mget a (sv_masks s) with Some mk => match nth_error (mk_paths mk) n with Some p => last_is b (path_masks s p) | None => false end | None => false end.
Lemma refs_ref {E} (s : svg E) a n b : refs s a n b = true -> mask_ref s a b.
Proof.
  unfold refs. destruct (mget a (sv_masks s)) as [mk|] eqn:Eg; [|discriminate]. destruct (nth_error (mk_paths mk) n) as [p|] eqn:Ep; [|discriminate].
  intros H. apply last_is_eq in H as [l H]. exists mk, p, l. split; [exact Eg|]. split; [exact (nth_error_In _ _ Ep)|exact H].
Qed.
Definition drawn_with {E} (s : svg E) (b : string) : bool := match sv_paths s with p :: _ => last_is b (path_masks s p) | [] => false end.
Lemma round_endless {E} (s : svg E) : (drawn_with s "c" && refs s "c" 0 "a" && refs s "a" 1 "b" && refs s "b" 0 "a")%bool = true -> endless s.
Proof.
  intros H. apply andb_prop in H as [H H4]. apply andb_prop in H as [H H3]. apply andb_prop in H as [H1 H2].
  apply refs_ref in H2, H3, H4. unfold drawn_with in H1. destruct (sv_paths s) as [|p l] eqn:Es; [discriminate|]. apply last_is_eq in H1 as [l' H1].
  exists p, l', "c". split; [rewrite Es; now left|]. split; [exact H1|]. exists "a".
  split; [right; now constructor|]. apply ml_more with "b"; [exact H3|now constructor].
Qed.
Definition round_result (r : presult D) : bool :=
  match r with PSvg s None _ => (drawn_with s "c" && refs s "c" 0 "a" && refs s "a" 1 "b" && refs s "b" 0 "a")%bool | _ => false end.
Lemma round_result_ok r : round_result r = true -> exists s log, r = PSvg s None log /\ endless s.
Proof. destruct r as [e|s [e|] log| |]; try discriminate. intros H. exists s, log. split; [reflexivity|now apply round_endless]. Qed.
Lemma round_checked : round_result (parse (E := D) 1 StrictErrorMode (tokens C36_round) TermEOF) = true.
Proof. vm_compute. reflexivity. Qed.
Example C36_round_example : exists (s : svg D) log, parse 1 StrictErrorMode (tokens C36_round) TermEOF = PSvg s None log
  /\ endless s /\ forall fuel opts, ggDrawSvg fuel s opts = NoFuel.
Proof.
  destruct (round_result_ok _ round_checked) as (s & log & Hp & He). exists s, log. split; [exact Hp|]. split; [exact He|].
  intros fuel opts. exact (proj1 (C36_gg_ends D _ _ _ _ _ _ _ opts Hp) He fuel).
Qed.
(** the same masks, when no path outside them uses one: it is drawn, although its masks lead back to themselves *)
Definition C36_unused : node := Elem "svg" []
  [Elem "mask" [mkAttr "id" "a"] [Elem "line" [mkAttr "x2" "5"; mkAttr "mask" "url(#a)"] []];
   Elem "line" [mkAttr "x2" "5"] []].
Definition unmasked {E} (s : svg E) : bool := forallb (fun p => match path_masks s p with [] => true | _ => false end) (sv_paths s).
Definition unused_result (r : presult D) : bool :=
  match r with PSvg s None _ => (unmasked s && refs s "a" 0 "a" && (List.length (sv_masks s) =? 1)%nat && (List.length (sv_paths s) =? 1)%nat)%bool | _ => false end.
Lemma unused_result_ok r : unused_result r = true ->
  exists s log, r = PSvg s None log /\ List.length (sv_paths s) = 1%nat /\ List.length (sv_masks s) = 1%nat /\ ~ masks_acyclic s /\ ~ endless s.
Proof.
  destruct r as [e|s [e|] log| |]; try discriminate. intros H. exists s, log. split; [reflexivity|].
  apply andb_prop in H as [H H4]. apply andb_prop in H as [H H3]. apply andb_prop in H as [H1 H2].
  apply refs_ref in H2. apply Nat.eqb_eq in H3, H4. split; [exact H4|]. split; [exact H3|]. split; [intros Ha; apply (Ha "a"); now constructor|].
  intros (p & ids & a & Hp & Hm & _). unfold unmasked in H1. rewrite forallb_forall in H1. specialize (H1 p Hp). rewrite Hm in H1. destruct ids; discriminate H1.
Qed.
Lemma unused_checked : unused_result (parse (E := D) 1 StrictErrorMode (tokens C36_unused) TermEOF) = true.
Proof. vm_compute. reflexivity. Qed.
Example C36_unused_example : exists (s : svg D) log, parse 1 StrictErrorMode (tokens C36_unused) TermEOF = PSvg s None log
  /\ List.length (sv_paths s) = 1%nat /\ ~ masks_acyclic s /\ ~ endless s /\ forall opts, exists calls, ggDrawSvg 2 s opts = Ret calls.
Proof.
  destruct (unused_result_ok _ unused_checked) as (s & log & Hp & H1 & H2 & Ha & He). exists s, log. split; [exact Hp|]. split; [exact H1|]. split; [exact Ha|]. split; [exact He|].
  intros opts. apply (proj2 (C36_gg_ends D _ _ _ _ _ _ _ opts Hp) He). rewrite H2. apply le_n.
Qed.
