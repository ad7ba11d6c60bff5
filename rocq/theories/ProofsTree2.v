(** * ProofsTree2: whole documents *)
From Coq Require Import Lia.
From Verif Require Export ProofsTree.
Local Open Scope go_scope.

Section Doc.
Context {E : Env} (SH : bounds E -> point E -> string -> list attr -> path -> Prop) (mode : errorMode) (m0 : nat) (HSH : faithful mode m0 SH) (Hnames : name_table E).
Notation cursor := (cursor E).

Lemma seen_start name attrs kids pre post : seenTag (flat_map tokens (pre ++ Elem name attrs kids :: post)) = true.
Proof.
  unfold seenTag. rewrite flat_map_app, existsb_app. cbn. apply Bool.orb_true_r.
Qed.
Lemma root_text pre t : text_of pre = Some t -> forall name attrs kids post, root_attrs (pre ++ Elem name attrs kids :: post) = attrs.
Proof.
  revert t. induction pre as [|k pre IH]; intros t Ht name attrs kids post; [reflexivity|]. destruct k as [?|s|]; cbn [text_of] in Ht; [discriminate| |].
  - destruct (text_of pre) as [t'|]; [|discriminate]. exact (IH _ eq_refl _ _ _ _).
  - exact (IH _ Ht _ _ _ _).
Qed.
Theorem document_parses_any fuel lenient dep ns vb w : m0 + dep <= fuel -> document E SH lenient dep ns vb w -> (lenient = true -> mode <> StrictErrorMode) ->
  exists s log, parse (S fuel) mode (flat_map tokens ns) TermEOF = PSvg s None log /\ shows E SH vb w s
    /\ sv_width s = text_attr "width" "" (root_attrs ns) /\ sv_height s = text_attr "height" "" (root_attrs ns).
Proof.
  intros Hfuel (pre & attrs & kids & post & st & t & u & -> & Hpre & Hpost & (ds & Ha & Hd) & Hv & Hk) Hmode.
  rewrite (root_text pre t Hpre).
  assert (R1 : runs fuel (flat_map tokens pre) (cursor0 mode) (cursor0 (E := E) mode)).
  { apply (text_ignored fuel pre t Hpre); reflexivity. }
  destruct (pushStyle_decls Hnames (no_box E) (fun _ => None) defaultStyle attrs ds st (cursor0 (E := E) mode) [] Ha Hd eq_refl) as (ps1 & Hp); [|reflexivity|].
  { intros id. cbn. reflexivity. }
  match type of Hp with pushStyle _ _ = (?c, _) => set (c1 := c) in Hp end.
  destruct (svgF_ok c1 attrs vb Hv) as (ps2 & Hs).
  match type of Hs with _ = (?c, _) => set (c2 := c) in Hs end.
  assert (R2 : stepToken (S fuel) (TStart "svg" attrs) (cursor0 mode) = (c2, Ret tt)).
  { rewrite (start_step fuel "svg" attrs (cursor0 mode) c1 c2 svgF Hp eq_refl eq_refl Hs). apply collect_nothing. reflexivity. }
  set (wd := text_attr "width" "" attrs). set (ht := text_attr "height" "" attrs).
  assert (H2 : holds SH mode vb lenient wd ht false None (world0 E) c2).
  { split; [|split; [reflexivity|intros id; reflexivity]]. constructor; try reflexivity.
    - split; reflexivity.
    - repeat split. exact Hmode.
    - intros id. exact I.
    - split; [reflexivity|]. split; [reflexivity|constructor].
    - intros id d Hx. discriminate Hx. }
  destruct (proj2 (tree_run SH mode m0 HSH Hnames vb lenient dep wd ht fuel Hfuel) st kids (world0 E) w Hk None c2 [defaultStyle]) as (c3 & R3 & S3 & H3); [congruence|reflexivity|exact H2|].
  destruct (end_plain SH mode vb lenient wd ht fuel "svg" false None w c3 st [defaultStyle]) as (c4 & R4 & H4 & S4); auto.
  { left. cbn. intros Hx'. repeat (destruct Hx' as [Hx'|Hx']; [discriminate|]). destruct Hx'. }
  pose proof (proj1 H4) as M4.
  assert (R5 : runs fuel (flat_map tokens post) c4 c4).
  { apply (text_ignored fuel post u Hpost); apply M4. }
  assert (R : runs fuel (flat_map tokens (pre ++ Elem "svg" attrs kids :: post)) (cursor0 mode) c4).
  { rewrite flat_map_app. cbn [flat_map]. eapply runs_app; [exact R1|]. eapply runs_app; [|exact R5]. eapply runs_elem; eassumption. }
  unfold runs in R. exists (c_svg c4), (pc_log (c_pc c4)). split.
  { unfold parse. rewrite R, seen_start. reflexivity. }
  split; [|exact (h_size _ _ _ _ _ _ _ _ _ _ M4)].
  destruct M4. split; [assumption|]. split; [assumption|]. split; [assumption|]. split; [apply h_figs|]. exact h_masks.
Qed.
End Doc.

(** the shapes of SpecDoc *)
Lemma shape_faithful {E : Env} (add_comm : forall a b, fadd E a b = fadd E b a)  md : faithful md 0 (shape E).
Proof.
  intros fuel vb off name attrs p0 c _ H. split; [destruct H; cbn; auto 9|]. intros HM H1 H2 H3.
  destruct (shape_draws add_comm fuel vb off name attrs p0 c H H1 H2 H3) as (df & p & Hdf & (pc' & D1 & D2 & (D3 & D4 & D5) & _) & Hsh & Hiff).
  exists df, pc'. subst p off. unfold offset. split; [exact Hdf|]. split; [exact D1|]. split; [congruence|]. split; [congruence|]. split; assumption.
Qed.
Theorem document_parses {E : Env} (add_comm : forall a b, fadd E a b = fadd E b a) (Hnames : name_table E) fuel mode lenient dep ns vb w :
  dep <= fuel -> document E (shape E) lenient dep ns vb w -> (lenient = true -> mode <> StrictErrorMode) ->
  exists s log, parse (S fuel) mode (flat_map tokens ns) TermEOF = PSvg s None log /\ shows E (shape E) vb w s
    /\ sv_width s = text_attr "width" "" (root_attrs ns) /\ sv_height s = text_attr "height" "" (root_attrs ns).
Proof. exact (document_parses_any (shape E) mode 0 (shape_faithful add_comm mode) Hnames fuel lenient dep ns vb w). Qed.
