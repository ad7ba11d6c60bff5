(** * PropertiesPrefix: documents cut off anywhere (C77) *)
From Coq Require Import ZArith Lia.
From Verif Require Import F64 SpecEnd SpecValid SpecPrefix ProofsStyle ProofsAngle ProofsPrefix ExPath PropertiesEnd PropertiesLocal PropertiesValid PropertiesPanic.
Local Open Scope string_scope.

(** ** C77: beginnings of documents *)
(** [toks] is any beginning of the tokens of a document as in C74 and C76: what the XML decoder hands out of a file that ends too early, or
    that is not well-formed somewhere.  Parse reports whatever the decoder reports exactly when the elements begun so far are right. *)
Theorem C77_malformed : forall (E : Env) (mode : errorMode) (fuel k : nat),
  (forall y1 x1 y2 x2 f, k <= f -> raise_angle (E := E) f (fatan2 E y1 x1) (fatan2 E y2 x2) <> NoFuel) -> k <= fuel -> lower_url E ->
  forall (ns : list node) (toks rest : list token), forallb (well_nested false false) ns = true -> Forall ascii_attrs (flat_map elements_of ns) ->
  flat_map tokens ns = (toks ++ rest)%list ->
  ((forall s, exists v log, parse (E := E) fuel mode toks (TermErr s) = PSvg v (Some (ErrXML s)) log) <-> Forall (valid_at E mode) (elements_begun toks ns)).
Proof. exact (@prefix_malformed). Qed.
Print Assumptions C77_malformed.
(** It panics exactly when the first of them that is not right is as in C76, however the file ends. *)
Theorem C77_panics : forall (E : Env) (mode : errorMode) (fuel k : nat),
  (forall y1 x1 y2 x2 f, k <= f -> raise_angle (E := E) f (fatan2 E y1 x1) (fatan2 E y2 x2) <> NoFuel) -> k <= fuel -> lower_url E ->
  forall (ns : list node) (toks rest : list token) (tm : term), forallb (well_nested false false) ns = true -> Forall ascii_attrs (flat_map elements_of ns) ->
  flat_map tokens ns = (toks ++ rest)%list ->
  (parse (E := E) fuel mode toks tm = PPanic <-> first_wrong (valid_at E mode) (panic_at E mode) (elements_begun toks ns)).
Proof. exact (@prefix_panics). Qed.
Print Assumptions C77_panics.
(** When it is not right in another way, Parse returns an error with what it has read. *)
Theorem C77_errors : forall (E : Env) (mode : errorMode) (fuel k : nat),
  (forall y1 x1 y2 x2 f, k <= f -> raise_angle (E := E) f (fatan2 E y1 x1) (fatan2 E y2 x2) <> NoFuel) -> k <= fuel -> lower_url E ->
  forall (ns : list node) (toks rest : list token) (tm : term), forallb (well_nested false false) ns = true -> Forall ascii_attrs (flat_map elements_of ns) ->
  flat_map tokens ns = (toks ++ rest)%list ->
  ~ Forall (valid_at E mode) (elements_begun toks ns) -> ~ first_wrong (valid_at E mode) (panic_at E mode) (elements_begun toks ns) ->
  exists v e log, parse (E := E) fuel mode toks tm = PSvg v (Some e) log.
Proof. exact (@prefix_answers). Qed.
Print Assumptions C77_errors.
(** Once an element is not right, nothing that follows it matters: neither tokens nor how the file ends. *)
Theorem C77_rest : forall (E : Env) (mode : errorMode) (fuel k : nat),
  (forall y1 x1 y2 x2 f, k <= f -> raise_angle (E := E) f (fatan2 E y1 x1) (fatan2 E y2 x2) <> NoFuel) -> k <= fuel -> lower_url E ->
  forall (ns : list node) (toks rest : list token) (tm : term) (more : list token) (tm' : term),
  forallb (well_nested false false) ns = true -> Forall ascii_attrs (flat_map elements_of ns) -> flat_map tokens ns = (toks ++ rest)%list ->
  ~ Forall (valid_at E mode) (elements_begun toks ns) -> parse (E := E) fuel mode (toks ++ more) tm' = parse (E := E) fuel mode toks tm.
Proof. exact (@prefix_decides). Qed.
Print Assumptions C77_rest.
(** The same for the numbers of Go. *)
Theorem C77_float64 : forall (O : Oracles) (mode : errorMode) (fuel : nat) (ns : list node) (toks rest : list token), angles O -> 1 <= fuel -> lower_url (F64 O) ->
  forallb (well_nested false false) ns = true -> Forall ascii_attrs (flat_map elements_of ns) -> flat_map tokens ns = (toks ++ rest)%list ->
  ((forall s, exists v log, parse (E := F64 O) fuel mode toks (TermErr s) = PSvg v (Some (ErrXML s)) log) <-> Forall (valid_at (F64 O) mode) (elements_begun toks ns))
  /\ forall tm, parse (E := F64 O) fuel mode toks tm = PPanic <-> first_wrong (valid_at (F64 O) mode) (panic_at (F64 O) mode) (elements_begun toks ns).
Proof.
  intros O mode fuel ns toks rest Ha Hf Hu Hw Hs Ht. split; [exact (prefix_malformed mode fuel 1 (turns_F64 O Ha) Hf Hu ns toks rest Hw Hs Ht)|].
  intros tm. exact (prefix_panics mode fuel 1 (turns_F64 O Ha) Hf Hu ns toks rest tm Hw Hs Ht).
Qed.
Print Assumptions C77_float64.

(** ** Concrete cases *)
(** the document of C74 with a colour that is cut short, itself cut off before and after the start of the element that has it *)
Definition cut_doc (n : nat) : list token := firstn n (flat_map tokens (valid_doc "#12")).
Example C77_example :
  angles demoA /\ lower_url (F64 demoA) /\ forallb (well_nested false false) (valid_doc "#12") = true /\ Forall ascii_attrs (flat_map elements_of (valid_doc "#12"))
  /\ flat_map tokens (valid_doc "#12") = (cut_doc 10 ++ skipn 10 (flat_map tokens (valid_doc "#12")))%list
  /\ List.length (elements_begun (cut_doc 10) (valid_doc "#12")) = 6 /\ List.length (elements_begun (cut_doc 11) (valid_doc "#12")) = 7
  /\ Forall (valid_at (F64 demoA) StrictErrorMode) (elements_begun (cut_doc 10) (valid_doc "#12"))
  /\ (forall s, exists v log, parse (E := F64 demoA) 1 StrictErrorMode (cut_doc 10) (TermErr s) = PSvg v (Some (ErrXML s)) log)
  /\ (forall tm, parse (E := F64 demoA) 1 StrictErrorMode (cut_doc 11) tm = PPanic).
Proof.
  assert (K : forall s, exists v log, parse (E := F64 demoA) 1 StrictErrorMode (cut_doc 10) (TermErr s) = PSvg v (Some (ErrXML s)) log).
  { intros s. assert (Q : match snd (mapM (stepToken (E := F64 demoA) 1) (cut_doc 10) (cursor0 StrictErrorMode)) with Ret _ => true | _ => false end = true) by (vm_compute; reflexivity).
    unfold parse. destruct (mapM (stepToken 1) (cut_doc 10) (cursor0 StrictErrorMode)) as [c [u|e| |]]; try discriminate. eexists. eexists. reflexivity. }
  assert (H : flat_map tokens (valid_doc "#12") = (cut_doc 10 ++ skipn 10 (flat_map tokens (valid_doc "#12")))%list) by (symmetry; apply firstn_skipn).
  split; [exact (proj1 C28_example)|]. split; [exact lower_demo|]. split; [reflexivity|]. split; [apply ascii_all; reflexivity|]. split; [exact H|]. split; [reflexivity|]. split; [reflexivity|].
  split; [|split; [exact K|]].
  - apply (C77_float64 demoA StrictErrorMode 1 (valid_doc "#12") (cut_doc 10) _ (proj1 C28_example) (le_n 1) lower_demo eq_refl (ascii_all (flat_map elements_of (valid_doc "#12")) eq_refl) H). exact K.
  - intros tm. assert (Q : match snd (mapM (stepToken (E := F64 demoA) 1) (cut_doc 11) (cursor0 StrictErrorMode)) with Panic => true | _ => false end = true) by (vm_compute; reflexivity).
    unfold parse. destruct (mapM (stepToken 1) (cut_doc 11) (cursor0 StrictErrorMode)) as [c [u|e| |]]; try discriminate. reflexivity.
Qed.
