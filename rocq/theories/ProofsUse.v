(** * ProofsUse: what a use element adds to the document *)
From Coq Require Import Lia.
From Verif Require Import Logic SpecDoc SpecTree SpecLift ProofsSeg ProofsTree ProofsTree2 ProofsRoot ProofsLift ProofsLift2.
Local Open Scope go_scope.
Section U.
Context {E : Env}.
Notation cursor := (cursor E).
Theorem use_stored (Hnames : name_table E) (fuel m k : nat) (c : cursor) grads defs par rest attrs st id x y ts ps off p :
  let vb := sv_viewBox (c_svg c) in
  m + k <= fuel -> sees c grads -> defs_agree defs (sv_defs (c_svg c)) -> c_stack c = par :: rest -> pc_path (c_pc c) = [] ->
  c_inDefs c = false -> c_inMask c = false ->
  styled E vb grads par attrs st -> text_attr "href" "" attrs = ("#" ++ id)%string ->
  length_attr vb OfWidth "x" attrs x -> length_attr vb OfHeight "y" attrs y ->
  defs id = Some ts -> traces E vb grads defs k (x, y) st ts ps off -> outlines E (alone E (pc_mode (c_pc c)) m) vb [] ps p ->
  exists c', stepToken (S fuel) (TStart "use" attrs) c = (c', Ret tt) /\ c_stack c' = st :: par :: rest
    /\ sv_paths (c_svg c') = sv_paths (c_svg c) ++ match p with [] => [] | _ => [mkSvgPath p st] end.
Proof.
  intros vb Hm Hs Hda Hc Hp Hd Hk Hst Hh Hx Hy Hg Htr Ha.
  destruct (push_ok Hnames vb grads par attrs st c rest Hst eq_refl Hs Hc) as (pts & Hpush).
  set (c1 := c_set_stack _ _) in Hpush.
  destruct (use_alone Hnames fuel m k c1 grads defs attrs st (par :: rest) id x y ts ps off p) as (df & c' & H1 & H2 & H3 & H4 & H5 & H6); try assumption; try reflexivity.
  pose proof (start_step fuel "use" attrs c c1 c' df Hpush) as K. rewrite K; [|unfold c1; cbn; rewrite Hd; reflexivity|exact H1|exact H2].
  rewrite H6. unfold collectPath, bind, gets. cbn [c_set_pc c_pc]. rewrite H3.
  destruct p as [|o p]; [eexists; split; [reflexivity|]; split; [reflexivity|]; cbn; rewrite app_nil_r; reflexivity|].
  unfold c1. cbn. rewrite Hk. cbn. eexists. split; [reflexivity|]. split; reflexivity.
Qed.
End U.
