(** * PropertiesLocal: documents element by element (C73) *)
From Coq Require Import ZArith Lia.
From Verif Require Import F64 SpecEnd SpecLocal ProofsLocal ProofsAngle ExPath PropertiesEnd.
Local Open Scope string_scope.

(** ** C73: documents element by element *)
(** A document without definitions, references and gradients is accepted exactly when each of its elements is accepted as a document
    of its own; the lines logged are then those of the elements, in order.  The condition on [raise_angle] is that of C28: [k] turns
    of the angle loop of rounded corners are enough. *)
Theorem C73_accepted : forall (E : Env) (mode : errorMode) (fuel k : nat),
  (forall y1 x1 y2 x2 f, k <= f -> raise_angle (E := E) f (fatan2 E y1 x1) (fatan2 E y2 x2) <> NoFuel) -> k <= fuel -> lower_url E ->
  forall (ns : list node), no_context (flat_map elements_of ns) -> flat_map elements_of ns <> []%list -> forall log,
  says_of E fuel mode ns None log
  <-> exists ls, Forall2 (fun el l => says_of E fuel mode (by_itself el) None l) (flat_map elements_of ns) ls /\ log = List.concat ls.
Proof. exact (@local_accepted). Qed.
Print Assumptions C73_accepted.
(** Otherwise the error is that of the first element which is refused as a document of its own, after the lines logged for those
    before it. *)
Theorem C73_refused : forall (E : Env) (mode : errorMode) (fuel k : nat),
  (forall y1 x1 y2 x2 f, k <= f -> raise_angle (E := E) f (fatan2 E y1 x1) (fatan2 E y2 x2) <> NoFuel) -> k <= fuel -> lower_url E ->
  forall (ns : list node), no_context (flat_map elements_of ns) -> flat_map elements_of ns <> []%list -> forall e log,
  says_of E fuel mode ns (Some e) log
  <-> exists pre el post ls l, flat_map elements_of ns = (pre ++ el :: post)%list
      /\ Forall2 (fun el l => says_of E fuel mode (by_itself el) None l) pre ls
      /\ says_of E fuel mode (by_itself el) (Some e) l /\ log = (List.concat ls ++ l)%list.
Proof. exact (@local_refused). Qed.
Print Assumptions C73_refused.
(** With definitions and gradients an element depends on its ancestors, and on nothing else: such a document is accepted exactly when
    for each of its elements the document made of it and its ancestors alone is accepted. *)
Theorem C73_branches : forall (E : Env) (mode : errorMode) (fuel k : nat),
  (forall y1 x1 y2 x2 f, k <= f -> raise_angle (E := E) f (fatan2 E y1 x1) (fatan2 E y2 x2) <> NoFuel) -> k <= fuel -> lower_url E ->
  forall (ns : list node), forallb (well_nested false false) ns = true -> flat_map elements_of ns <> []%list ->
  (accepts E fuel mode ns <-> Forall (fun b => accepts E fuel mode (branch_doc b)) (flat_map (branches_of []) ns)).
Proof. exact (@branches_accepted). Qed.
Print Assumptions C73_branches.
(** Otherwise the error is that of the first branch which is refused. *)
Theorem C73_branch_refused : forall (E : Env) (mode : errorMode) (fuel k : nat),
  (forall y1 x1 y2 x2 f, k <= f -> raise_angle (E := E) f (fatan2 E y1 x1) (fatan2 E y2 x2) <> NoFuel) -> k <= fuel -> lower_url E ->
  forall (ns : list node), forallb (well_nested false false) ns = true -> flat_map elements_of ns <> []%list -> forall e,
  refuses E fuel mode ns e
  <-> exists pre b post, flat_map (branches_of []) ns = (pre ++ b :: post)%list
      /\ Forall (fun b => accepts E fuel mode (branch_doc b)) pre /\ refuses E fuel mode (branch_doc b) e.
Proof. exact (@branches_refused). Qed.
Print Assumptions C73_branch_refused.
(** The same for the numbers of Go. *)
Theorem C73_float64 : forall (O : Oracles) (mode : errorMode) (fuel : nat) (ns : list node), angles O -> 1 <= fuel -> lower_url (F64 O) ->
  forallb (well_nested false false) ns = true -> flat_map elements_of ns <> []%list ->
  (accepts (F64 O) fuel mode ns <-> Forall (fun b => accepts (F64 O) fuel mode (branch_doc b)) (flat_map (branches_of []) ns)).
Proof. intros O mode fuel ns Ha Hf Hu. exact (branches_accepted mode fuel 1 (turns_F64 O Ha) Hf Hu ns). Qed.
Print Assumptions C73_float64.
(** So it does not matter how the elements are nested and ordered, or how often each occurs: two documents with the same elements are
    both accepted or both refused. *)
Theorem C73_order : forall (O : Oracles) (mode : errorMode) (fuel : nat) (ns ms : list node), angles O -> 1 <= fuel -> lower_url (F64 O) ->
  (forall el, List.In el (flat_map elements_of ns) <-> List.In el (flat_map elements_of ms)) ->
  no_context (flat_map elements_of ns) -> flat_map elements_of ns <> []%list ->
  (accepts (F64 O) fuel mode ns <-> accepts (F64 O) fuel mode ms).
Proof. intros O mode fuel ns ms Ha Hf Hu. exact (accepts_same mode fuel 1 (turns_F64 O Ha) Hf Hu ns ms). Qed.
Print Assumptions C73_order.

(** ** Concrete cases *)
(** an unknown element and an unknown command, with an element that is wrong at the end *)
Definition local_doc (last : string) : list node :=
  [Misc; Elem "svg" [mkAttr "viewBox" "0 0 9 9"]
    [Elem "title" [] [Chars "t"]; Elem "star" [mkAttr "x" "no"] [Elem "rect" [mkAttr "width" "4"; mkAttr "height" "50%"; mkAttr "rx" "1"] []];
     Elem "g" [mkAttr "style" "fill:red"] [Elem "path" [mkAttr "d" "M1 2J3L4 5"] []; Elem "circle" [mkAttr "r" last] []]]].
Definition said {A} (r : presult A) : option (option goerr * list string) := match r with PSvg _ err log => Some (err, log) | _ => None end.
Lemma said_of {E : Env} fuel mode ns err log : said (parse (E := E) fuel mode (flat_map tokens ns) TermEOF) = Some (err, log) -> says_of E fuel mode ns err log.
Proof. unfold says_of. destruct (parse _ _ _ _); try discriminate. cbn. intros H. injection H as -> ->. eexists. reflexivity. Qed.
Definition messages : list (list string) := [[]; []; ["Cannot process svg element star"]; []; []; ["Ignoring svg command J"]; []].
Lemma lower_demo : lower_url (F64 demoA).
Proof.
  assert (U : forall s, hasPrefix s "url(" = true -> exists t, s = ("url(" ++ t)%string).
  { intros s H. unfold hasPrefix in H. repeat (destruct s as [|? s]; cbn [prefix] in H; [discriminate|]; destruct (ascii_dec _ _) in H; [subst|discriminate]). exists s. reflexivity. }
  intros s H. destruct (U s H) as (t & ->). unfold toLower. destruct (all_chars is_ascii _); reflexivity.
Qed.
Example C73_example :
  angles demoA /\ lower_url (F64 demoA) /\ no_context (flat_map elements_of (local_doc "3")) /\ List.length (flat_map elements_of (local_doc "3")) = 7
  /\ Forall2 (fun el l => says_of (F64 demoA) 1 WarnErrorMode (by_itself el) None l) (flat_map elements_of (local_doc "3")) messages
  /\ says_of (F64 demoA) 1 WarnErrorMode (local_doc "3") None (List.concat messages).
Proof.
  split; [exact (proj1 C28_example)|]. split; [exact lower_demo|]. split; [|split; [reflexivity|]].
  { repeat constructor; cbn; intros H; repeat (destruct H as [H|H]; [discriminate|]); exact H. }
  split; [repeat (constructor; [apply said_of; vm_compute; reflexivity|]); constructor|apply said_of; vm_compute; reflexivity].
Qed.
(** the last element is wrong: the error is its error, and the lines before it are logged *)
Example C73_refused_example :
  says_of (F64 demoA) 1 WarnErrorMode (local_doc "x") (Some (ErrNumber "x")) (List.concat messages)
  /\ says_of (F64 demoA) 1 WarnErrorMode (by_itself ("circle", [mkAttr "r" "x"])) (Some (ErrNumber "x")) [].
Proof. split; apply said_of; vm_compute; reflexivity. Qed.
(** a gradient among definitions, a mask, and a shape drawn with the gradient: seven branches, each of them accepted *)
Definition branch_example (offset : string) : list node :=
  [Elem "svg" [] [Elem "defs" [] [Elem "linearGradient" [mkAttr "id" "a"; mkAttr "x2" "50%"] [Elem "stop" [mkAttr "offset" offset] []]; Elem "use" [mkAttr "href" "#b"] []];
    Elem "mask" [mkAttr "id" "m"] [Elem "rect" [mkAttr "width" "3"; mkAttr "height" "2"; mkAttr "fill" "url(#a)"] []]]].
Example C73_branches_example :
  forallb (well_nested false false) (branch_example "10%") = true /\ List.length (flat_map (branches_of []) (branch_example "10%")) = 7
  /\ accepts (F64 demoA) 1 StrictErrorMode (branch_example "10%")
  /\ Forall (fun b => accepts (F64 demoA) 1 StrictErrorMode (branch_doc b)) (flat_map (branches_of []) (branch_example "10%")).
Proof.
  split; [reflexivity|]. split; [reflexivity|]. split; [eexists; apply said_of; vm_compute; reflexivity|].
  repeat (constructor; [eexists; apply said_of; vm_compute; reflexivity|]). constructor.
Qed.
(** the stop is wrong: it is refused with its ancestors, and so is the document *)
Example C73_branch_refused_example :
  forallb (well_nested false false) (branch_example "x") = true
  /\ refuses (F64 demoA) 1 StrictErrorMode (branch_example "x") (ErrNumber "x")
  /\ refuses (F64 demoA) 1 StrictErrorMode
      (branch_doc [("svg", []); ("defs", []); ("linearGradient", [mkAttr "id" "a"; mkAttr "x2" "50%"]); ("stop", [mkAttr "offset" "x"])]) (ErrNumber "x").
Proof. split; [reflexivity|]. split; eexists; apply said_of; vm_compute; reflexivity. Qed.
(** Where there are gradients an element by itself says too little: a wrong stop is accepted by itself.  And a branch says too little
    when a <use> refers to another, when <defs> stands in <defs> and when a gradient stands in a gradient. *)
Definition each_says (ns : list node) : Prop := Forall (fun el => accepts (F64 demoA) 3 StrictErrorMode (by_itself el)) (flat_map elements_of ns).
Definition branches_say (ns : list node) : Prop := Forall (fun b => accepts (F64 demoA) 3 StrictErrorMode (branch_doc b)) (flat_map (branches_of []) ns).
Definition use_doc : list node :=
  [Elem "svg" [] [Elem "defs" [] [Elem "rect" [mkAttr "id" "a"; mkAttr "width" "3"; mkAttr "height" "2"] []]; Elem "use" [mkAttr "href" "#a"] []]].
Definition defs_doc : list node := [Elem "defs" [] [Elem "defs" [] []; Elem "rect" [mkAttr "width" "x"] []]].
Definition grad_doc : list node := [Elem "linearGradient" [] [Elem "radialGradient" [] []; Elem "stop" [mkAttr "offset" "x"] []]].
Theorem C73_context_refuted :
  (exists ns, ~ accepts (F64 demoA) 3 StrictErrorMode ns /\ each_says ns)
  /\ (accepts (F64 demoA) 3 StrictErrorMode use_doc /\ ~ branches_say use_doc)
  /\ (~ accepts (F64 demoA) 3 StrictErrorMode defs_doc /\ branches_say defs_doc)
  /\ (accepts (F64 demoA) 3 StrictErrorMode grad_doc /\ ~ branches_say grad_doc).
Proof.
  assert (No : forall ns e log, said (parse (E := F64 demoA) 3 StrictErrorMode (flat_map tokens ns) TermEOF) = Some (Some e, log) -> ~ accepts (F64 demoA) 3 StrictErrorMode ns).
  { intros ns e log H (log' & s & K). rewrite K in H. discriminate. }
  split; [|split; [|split]].
  - exists [Elem "svg" [] [Elem "linearGradient" [] [Elem "stop" [mkAttr "offset" "x"] []]]]. split; [eapply No; vm_compute; reflexivity|].
    unfold each_says. cbn [flat_map elements_of app]. repeat (constructor; [eexists; apply said_of; vm_compute; reflexivity|]). constructor.
  - split; [eexists; apply said_of; vm_compute; reflexivity|]. unfold branches_say. cbn [flat_map branches_of use_doc app]. intros H. apply Forall_inv_tail, Forall_inv_tail, Forall_inv_tail, Forall_inv in H. revert H. eapply No. vm_compute. reflexivity.
  - split; [eapply No; vm_compute; reflexivity|]. unfold branches_say. cbn [flat_map branches_of defs_doc app]. repeat (constructor; [eexists; apply said_of; vm_compute; reflexivity|]). constructor.
  - split; [eexists; apply said_of; vm_compute; reflexivity|]. unfold branches_say. cbn [flat_map branches_of grad_doc app]. intros H. apply Forall_inv_tail, Forall_inv_tail, Forall_inv in H. revert H. eapply No. vm_compute. reflexivity.
Qed.
Print Assumptions C73_context_refuted.
