(** * ProofsLift2: properties of single outlines, for all figures of a document *)
From Coq Require Import Reals Lia.
From Verif Require Import Logic SpecDoc SpecTree SpecLift ProofsSeg ProofsPath3 ProofsShape ProofsTree ProofsTree2 ProofsRoot ProofsLift.
Local Open Scope go_scope.
Section L.
Context {E : Env}.
Notation cursor := (cursor E). Notation C := (@C E).
Implicit Types c : cursor.
Theorem document_alone (Hnames : name_table E) fuel mode lenient dep m ns vb w : m + dep <= fuel -> document E (alone E mode m) lenient dep ns vb w ->
  (lenient = true -> mode <> StrictErrorMode) ->
  exists s log, parse (S fuel) mode (flat_map tokens ns) TermEOF = PSvg s None log /\ shows E (alone E mode m) vb w s
    /\ sv_width s = text_attr "width" "" (root_attrs ns) /\ sv_height s = text_attr "height" "" (root_attrs ns).
Proof. exact (document_parses_any _ mode m (alone_faithful mode m) Hnames fuel lenient dep ns vb w). Qed.

Lemma alone_same md m vb off name attrs p q : alone E md m vb off name attrs p -> alone E md m vb off name attrs q -> p = q.
Proof. intros (_ & _ & df & c & H1 & H2 & <-) (_ & _ & df' & c' & K1 & K2 & <-). rewrite H1 in K1. injection K1 as <-. congruence. Qed.

Lemma outlines_same md m vb ps : forall p q q', outlines E (alone E md m) vb p ps q -> outlines E (alone E md m) vb p ps q' -> q = q'.
Proof.
  induction ps as [|[[off name] attrs] ps IH]; intros p q q' H K; inversion H as [|? ? ? ? a ? ? H1 H2]; inversion K as [|? ? ? ? b ? ? K1 K2]; subst; [reflexivity|].
  rewrite (alone_same _ _ _ _ _ _ _ _ K1 H1) in K2. eauto.
Qed.
Theorem use_alone (Hnames : name_table E) (fuel m k : nat) (c : cursor) grads defs attrs st rest id x y ts ps off p :
  let vb := sv_viewBox (c_svg c) in
  m + k <= fuel -> sees c grads -> defs_agree defs (sv_defs (c_svg c)) -> c_stack c = st :: rest -> pc_path (c_pc c) = [] ->
  text_attr "href" "" attrs = ("#" ++ id)%string ->
  length_attr vb OfWidth "x" attrs x -> length_attr vb OfHeight "y" attrs y ->
  defs id = Some ts -> traces E vb grads defs k (x, y) st ts ps off -> outlines E (alone E (pc_mode (c_pc c)) m) vb [] ps p ->
  exists df c', drawFuncs (S fuel) "use" = Some df /\ df attrs c = (c', Ret tt) /\ pc_path (c_pc c') = p
    /\ c_stack c' = c_stack c /\ offset c' = (fnum E 0, fnum E 0) /\ c' = c_set_pc (c_pc c') c.
Proof.
  intros vb Hm Hs Hda Hc Hp Hh Hx Hy Hg Htr Ha.
  destruct (use_element_any _ _ m k (alone_faithful _ m) Hnames fuel c grads defs attrs st rest id x y ts ps off p Hm eq_refl Hs Hda Hc Hp Hh Hx Hy Hg Htr Ha)
    as (df & c' & H1 & H2 & H3 & H4). exists df, c'. split; [exact H1|]. split; [exact H2|]. split; [exact (outlines_same _ _ _ _ _ _ _ H3 Ha)|exact H4].
Qed.

Lemma F2_impl {A B} (P Q : A -> B -> Prop) xs ys : (forall a b, P a b -> Q a b) -> Forall2 P xs ys -> Forall2 Q xs ys.
Proof. intros H. induction 1; auto. Qed.
Theorem document_stores (Hnames : name_table E) (Q : figure E -> path -> Prop) fuel mode lenient dep m ns vb w :
  (forall f p, outlines E (alone E mode m) vb [] (fg_shapes E f) p -> Q f p) ->
  m + dep <= fuel -> document E (alone E mode m) lenient dep ns vb w -> (lenient = true -> mode <> StrictErrorMode) ->
  exists s log, parse (S fuel) mode (flat_map tokens ns) TermEOF = PSvg s None log /\ stores E Q w s.
Proof.
  intros HQ Hm Hd Hl. destruct (document_alone Hnames fuel mode lenient dep m ns vb w Hm Hd Hl) as (s & log & H & (_ & _ & _ & S4 & S5) & _).
  exists s, log. split; [exact H|].
  assert (imp : forall f sp, drawn E (alone E mode m) vb f sp -> sp_style sp = fg_style E f /\ Q f (sp_path sp)).
  { intros f sp (H1 & _ & H2). auto. }
  split; [exact (F2_impl _ _ _ _ imp S4)|]. intros id b figs Hid. specialize (S5 id). rewrite Hid in S5.
  destruct (mget id (sv_masks s)) as [mk|]; [|destruct S5]. destruct S5 as (_ & _ & S5). exists mk. split; [reflexivity|]. exact (F2_impl _ _ _ _ imp S5).
Qed.

Lemma path_once attrs s pc' c : attr_once "d" attrs s -> compilePath s (c_pc c) = (pc', Ret tt) -> pathF attrs c = (c_set_pc pc' c, Ret tt).
Proof.
  intros (l & r & -> & Hl & Hr) H. unfold pathF. rewrite mapM_app'. erewrite bind_step by exact (path_none l c Hl). cbn [mapM].
  erewrite bind_step; [exact (path_none r _ Hr)|]. unfold is, liftP. cbn [a_name a_val String.eqb Ascii.eqb Bool.eqb]. rewrite H. reflexivity.
Qed.
Lemma path_alone md m vb off attrs s p pc' : alone E md m vb off "path" attrs p -> attr_once "d" attrs s ->
  compilePath s (c_pc (start_at E md vb off)) = (pc', Ret tt) -> p = pc_path pc'.
Proof.
  intros (_ & _ & df & c & H1 & H2 & <-) Ha H. injection H1 as <-. rewrite (path_once attrs s pc' _ Ha H) in H2. injection H2 as <-. reflexivity.
Qed.
Lemma start_off md vb off : (pc_curX (c_pc (start_at E md vb off)), pc_curY (c_pc (start_at E md vb off))) = off.
Proof. destruct off. reflexivity. Qed.
Lemma draws_same fuel name attrs c p q : element_draws fuel name attrs c p -> element_draws fuel name attrs c q -> p = q.
Proof. intros (df & c1 & H1 & H2 & <-) (df' & c2 & K1 & K2 & <-). rewrite H1 in K1. injection K1 as <-. congruence. Qed.
End L.

(** ** The documents of [shape] are such documents *)
Section Mono.
Context {E : Env} (SH SH' : bounds E -> point E -> string -> list attr -> path -> Prop) (vb : bounds E) (lenient : bool) (dep : nat).
Context (imp : forall off name attrs p, SH vb off name attrs p -> exists p', SH' vb off name attrs p' /\ (p = [] <-> p' = [])).
Lemma outlines_mono ps : forall p q p', outlines E SH vb p ps q -> (p = [] <-> p' = []) -> exists q', outlines E SH' vb p' ps q' /\ (q = [] <-> q' = []).
Proof.
  induction ps as [|[[off name] attrs] ps IH]; intros p q p' H Hp; inversion H as [|? ? ? ? a ? ? H1 H2]; subst; [exists p'; split; [constructor|exact Hp]|].
  destruct (imp _ _ _ _ H1) as (a' & Ha & Hi). destruct (IH _ _ (joined name attrs p' a') H2) as (q' & K1 & K2); [apply joined_empty; assumption|].
  exists q'. split; [econstructor; eassumption|exact K2].
Qed.
Lemma fig_mono f w w' : draws_figure E SH vb f w w' -> draws_figure E SH' vb f w w'.
Proof.
  intros (p & H & ->). destruct (outlines_mono _ _ _ [] H) as (p' & H' & K); [tauto|]. exists p'. split; [exact H'|].
  destruct p, p'; try reflexivity; exfalso; destruct K as [K1 K2]; [specialize (K1 eq_refl)|specialize (K2 eq_refl)]; discriminate.
Qed.
Lemma sem_mono par : (forall n w w', sem E SH vb lenient dep par n w w' -> sem E SH' vb lenient dep par n w w')
  /\ (forall ns w w', sems E SH vb lenient dep par ns w w' -> sems E SH' vb lenient dep par ns w w').
Proof.
  revert par. apply sem_both; intros; try (econstructor; eassumption).
  - eapply sem_shape; eauto using fig_mono.
  - eapply sem_use; eauto using fig_mono.
Qed.
End Mono.
Theorem shape_alone {E : Env} (add_comm : forall a b, fadd E a b = fadd E b a) mode m vb off name attrs p : SpecDoc.shape E vb off name attrs p ->
  exists p', alone E mode m vb off name attrs p' /\ SpecDoc.shape E vb off name attrs p' /\ (p = [] <-> p' = []).
Proof.
  intros H. destruct (shape_faithful add_comm mode m vb off name attrs p (start_at E mode vb off) (Nat.le_0_l m) H) as (Hn & K).
  destruct (K eq_refl eq_refl (start_off mode vb off) eq_refl) as (df & pc' & K1 & K2 & _ & _ & K3 & K4). exists (pc_path pc'). split; [|tauto].
  split; [exact Hn|]. split; [|exists df, (c_set_pc pc' (start_at E mode vb off)); auto].
  clear - H. intros Hp. assert (once : forall s, attr_once "points" attrs s -> has_attr "points" attrs = true).
  { intros s (l & r & -> & _). unfold has_attr. rewrite existsb_app. cbn. apply Bool.orb_true_r. }
  destruct H; destruct Hp; try discriminate; eauto.
Qed.
Theorem shape_documents {E : Env} (add_comm : forall a b, fadd E a b = fadd E b a) mode m lenient dep ns vb w :
  document E (SpecDoc.shape E) lenient dep ns vb w -> document E (alone E mode m) lenient dep ns vb w.
Proof.
  intros (pre & attrs & kids & post & st & t & u & H1 & H2 & H3 & H4 & H5 & H6). exists pre, attrs, kids, post, st, t, u.
  repeat (split; [assumption|]). revert H6. apply sem_mono. intros off name as_ p H.
  destruct (shape_alone add_comm mode m vb off name as_ p H) as (p' & K1 & _ & K3). eauto.
Qed.
