(** * PropertiesRunes: exactly which texts are lists of numbers (C69) *)
From Coq Require Import ZArith Lia.
From Verif Require Import F64 SpecRunes ProofsRunes ProofsF64 ExTree.
Local Open Scope string_scope.

(** ** C69: number lists over any text *)
(** In UTF-8 text of any characters (those outside ASCII must not be numerals of another script) the numbers are the
    words [number_words]: when each of them is a number, getPoints reads exactly these numbers in this order. *)
Theorem C69_list : forall (E : Env) (cs : list N) (vs : list (F E)),
  plain_text E cs -> Forall2 (fun w v => word_value E w = Some v) (number_words cs) vs ->
  forall c : pcur E, getPoints (E := E) (utf8 cs) c = (set_points vs c, Ret tt).
Proof. exact (@number_list). Qed.
Print Assumptions C69_list.
(** When one of them is not, it reports an error. *)
Theorem C69_wrong : forall (E : Env) (cs : list N), wrong_list E cs ->
  forall c : pcur E, exists e, snd (getPoints (E := E) (utf8 cs) c) = Err e.
Proof. exact (@wrong_list_fails). Qed.
Print Assumptions C69_wrong.
(** A document whose viewBox, polyline, polygon or path has a word in its numbers that is none is not accepted, in any mode. *)
Theorem C69_element : forall (E : Env) (fuel : nat) (mode : errorMode) pre name attrs post (tm : term),
  flat_defs pre -> is_definition pre name = false -> wrong_numbers E name attrs ->
  forall s log, parse (E := E) fuel mode (pre ++ TStart name attrs :: post) tm <> PSvg s None log.
Proof. exact (@wrong_numbers_fail). Qed.
Print Assumptions C69_element.
(** Nor is one with such a word in the arguments of a transform function. *)
Theorem C69_transform : forall (E : Env) (fuel : nat) (mode : errorMode) pre name attrs post (tm : term) a ds v,
  List.In a attrs -> attr_decls a ds -> List.In ("transform", v) ds -> wrong_arguments E v ->
  forall s log, parse (E := E) fuel mode (pre ++ TStart name attrs :: post) tm <> PSvg s None log.
Proof. exact (@wrong_transform_fails). Qed.
Print Assumptions C69_transform.

(** ** Concrete cases *)
(** 1, euro sign, -2.5.5, a character of four bytes, e acute, 3e-1-4 *)
Definition euro_list : list N := [49; 8364; 45; 50; 46; 53; 46; 53; 128512; 233; 51; 101; 45; 49; 45; 52]%N.
Definition all_scalar (cs : list N) : bool :=
  forallb (fun r => ((r <? 55296) || (57344 <=? r) && (r <? 1114112)) && Bool.eqb (isNumber D r) (decimal_digit r))%N cs.
Lemma all_scalar_plain cs : all_scalar cs = true -> plain_text D cs.
Proof.
  intros H. unfold all_scalar in H. rewrite forallb_forall in H. apply Forall_forall. intros r Hr. specialize (H r Hr).
  apply andb_prop in H as [H1 H2]. apply Bool.eqb_prop in H2. split; [|exact H2]. unfold scalar.
  rewrite orb_true_iff, andb_true_iff, !N.ltb_lt, N.leb_le in H1. exact H1.
Qed.
Example C69_list_example : plain_text D euro_list
  /\ number_words euro_list = ["1"; "-2.5"; ".5"; "3e-1"; "-4"]
  /\ String.length (utf8 euro_list) = 22
  /\ Forall (fun w => word_value D w <> None) (number_words euro_list).
Proof.
  split; [apply all_scalar_plain; vm_compute; reflexivity|]. split; [vm_compute; reflexivity|]. split; [vm_compute; reflexivity|].
  assert (K : forallb (fun w => match word_value D w with Some _ => true | None => false end) (number_words euro_list) = true) by (vm_compute; reflexivity).
  rewrite forallb_forall in K. apply Forall_forall. intros w Hw. specialize (K w Hw). destruct (word_value D w); discriminate.
Qed.
(** "0 0 9 e", "M1 1L2 3.." *)
Definition chars (s : string) : list N := map N_of_ascii (list_ascii_of_string s).
Definition no_word (w : string) : bool := match parseFloat D w with None => true | Some _ => false end.
Lemma wrong_of cs : all_scalar cs = true -> existsb no_word (number_words cs) = true -> wrong_list D cs.
Proof.
  intros H K. split; [apply all_scalar_plain, H|]. apply existsb_exists in K as (w & Hw & Hn). exists w. split; [exact Hw|].
  unfold no_word in Hn. destruct (parseFloat D w); [discriminate|reflexivity].
Qed.
Definition accepted (r : presult D) : bool := match r with PSvg _ None _ => true | _ => false end.
Definition one_element (name : string) (attrs : list attr) : presult D :=
  parse 3 IgnoreErrorMode ([TStart "svg" []] ++ TStart name attrs :: [TEnd name; TEnd "svg"]) TermEOF.
Example C69_element_example :
  wrong_list D (chars "0 0 9 e")
  /\ wrong_numbers D "svg" [mkAttr "viewBox" "0 0 9 e"]
  /\ wrong_numbers D "polygon" [mkAttr "points" "0 0 9 1-"]
  /\ wrong_numbers D "path" [mkAttr "d" "M1 1L2 3..H5"]
  /\ wrong_arguments D "rotate(1) scale(2e )"
  /\ accepted (one_element "svg" [mkAttr "viewBox" "0 0 9 9"]) = true
  /\ accepted (one_element "polygon" [mkAttr "points" "0 0 9 1"]) = true
  /\ accepted (one_element "path" [mkAttr "d" "M1 1L2 3.H5"]) = true
  /\ accepted (one_element "g" [mkAttr "transform" "rotate(1) scale(2 )"]) = true.
Proof.
  split; [apply wrong_of; vm_compute; reflexivity|].
  split. { apply (wn_viewBox D _ (chars "0 0 9 e")); [left; reflexivity|]. apply wrong_of; vm_compute; reflexivity. }
  split. { apply (wn_points D _ _ (chars "0 0 9 1-")); [right; reflexivity|left; reflexivity|]. apply wrong_of; vm_compute; reflexivity. }
  split. { assert (S : forall l, all_scalar l = true -> Forall scalar l) by (intros l H; apply (@plain_scalar D), all_scalar_plain, H).
    apply (wn_path D _ (chars "M1 1") 76%N (chars "2 3..") (chars "H5")); [left; reflexivity|apply S; vm_compute; reflexivity|apply S; vm_compute; reflexivity| | | |].
    - unfold command_letter. lia.
    - repeat constructor; right; reflexivity.
    - apply wrong_of; vm_compute; reflexivity.
    - cbn. unfold command_letter. lia. }
  split. { exists "rotate(1)", " ", "scale", "", (chars "2e "), "". split; [reflexivity|]. split; [right; reflexivity|].
    split; [reflexivity|]. split; [reflexivity|]. split; [discriminate|]. split; [reflexivity|]. split; [cbn; repeat constructor; lia|].
    apply wrong_of; vm_compute; reflexivity. }
  vm_compute. auto.
Qed.
