(** * ProofsInit: style parts a document never mentions *)
From Coq Require Import Lia.
From Verif Require Import SpecInit SpecLift ProofsStyle ProofsTree ProofsTree2 ProofsRoot ProofsLift ProofsLift2.
Section I.
Context {E : Env} (p : part).
Lemma put_others us : forall st : style E, Forall (fun u => projT1 u <> p) us -> part_of p (put_parts us st) = part_of p st.
Proof.
  induction us as [|u us IH]; intros st H; [reflexivity|]. inversion H as [|? ? H1 H2]; subst. unfold put_parts in *. cbn [fold_left].
  rewrite (IH _ H2). apply get_put_other. exact H1.
Qed.
Lemma decl_parts vb grads par (st : style E) k v us : decl E vb grads par st k v us -> ~ List.In p (parts_named k) -> Forall (fun u => projT1 u <> p) us.
Proof.
  intros H Hn. destruct H; cbn in Hn; repeat constructor; cbn; intros <-; apply Hn; auto.
Qed.
Lemma decls_silent vb grads par ds : forall st st' : style E, decls E vb grads par st ds st' ->
  (forall k v, List.In (k, v) ds -> ~ List.In p (parts_named k)) -> part_of p st' = part_of p st.
Proof.
  induction ds as [|[k v] ds IH]; intros st st' H Hn; inversion H as [|? ? ? us ? ? Hd Hds]; subst; [reflexivity|].
  rewrite (IH _ _ Hds); [|intros k' v' Hin; eapply Hn; right; exact Hin]. eapply put_others, decl_parts; [exact Hd|]. apply (Hn k v). left. reflexivity.
Qed.
Lemma styled_silent vb grads par attrs st : styled E vb grads par attrs st -> silent p attrs -> part_of p st = part_of p par.
Proof. intros (ds & H1 & H2) Hs. eapply decls_silent; [exact H2|]. intros k v. exact (Hs ds k v H1). Qed.

Context (x : part_type E p) (SH : bounds E -> point E -> string -> list attr -> path -> Prop) (vb : bounds E) (lenient : bool) (dep : nat).
Definition kept (w : world E) : Prop :=
  Forall (fun f => part_of p (fg_style E f) = x) (w_figs E w)
  /\ forall id b figs, w_masks E w id = Some (b, figs) -> Forall (fun f => part_of p (fg_style E f) = x) figs.
Lemma kept_fig f w w' : draws_figure E SH vb f w w' -> part_of p (fg_style E f) = x -> kept w -> kept w'.
Proof.
  intros (o & _ & ->) Hf [H1 H2]. destruct o; [split; assumption|]. split; [|exact H2]. cbn. apply Forall_app. auto.
Qed.
Lemma grad_figs par n w w' : grad_elem E vb par n w w' -> kept w -> kept w'.
Proof. intros H. destruct H; auto. Qed.
Lemma def_figs par cur ns w w' : def_kids E vb par cur ns w w' -> kept w -> kept w'.
Proof. induction 1; auto. intros K. apply IHdef_kids. eapply grad_figs; eassumption. Qed.
Lemma sem_kept : (forall par n w w', sem E SH vb lenient dep par n w w' -> part_of p par = x -> silent_node p n -> kept w -> kept w')
  /\ (forall par ns w w', sems E SH vb lenient dep par ns w w' -> part_of p par = x -> silent_nodes p ns -> kept w -> kept w').
Proof.
  assert (K : forall par, (forall n w w', sem E SH vb lenient dep par n w w' -> part_of p par = x -> silent_node p n -> kept w -> kept w')
    /\ (forall ns w w', sems E SH vb lenient dep par ns w w' -> part_of p par = x -> silent_nodes p ns -> kept w -> kept w')).
  { apply (sem_both E SH vb lenient dep (fun par n w w' => part_of p par = x -> silent_node p n -> kept w -> kept w')
      (fun par ns w w' => part_of p par = x -> silent_nodes p ns -> kept w -> kept w')); auto.
    - intros par name attrs kids st w w1 w2 H1 H2 _ IH Hp [Hs Hk] K. pose proof (eq_trans (styled_silent _ _ _ _ _ H1 Hs) Hp) as Hst.
      apply (IH Hst Hk). exact (kept_fig _ _ _ H2 Hst K).
    - intros par name attrs kids st w w' _ H1 _ IH Hp [Hs Hk] K. exact (IH (eq_trans (styled_silent _ _ _ _ _ H1 Hs) Hp) Hk K).
    - intros par n w w' H _ _ K. exact (grad_figs _ _ _ _ H K).
    - intros par attrs kids st w w' _ H _ _ K. exact (def_figs _ _ _ _ _ H K).
    - intros par attrs kids st id b w w' H1 _ _ _ IH Hp [Hs Hk] [K1 K2].
      destruct (IH (eq_trans (styled_silent _ _ _ _ _ H1 Hs) Hp) Hk) as [J1 J2]. { split; [constructor|exact K2]. }
      split; [exact K1|]. cbn. intros id' b' figs. unfold set. destruct (String.eqb id' id); [intros [= <- <-]; exact J1|apply J2].
    - intros par attrs kids st id a b ts ps off w w1 w2 H1 _ _ _ _ _ H2 _ IH Hp [Hs Hk] K. pose proof (eq_trans (styled_silent _ _ _ _ _ H1 Hs) Hp) as Hst.
      apply (IH Hst Hk). exact (kept_fig _ _ _ H2 Hst K).
    - intros par n r w w1 w2 _ IH1 _ IH2 Hp [Hn Hr] K. auto. }
  split; intros par; apply (K par).
Qed.
End I.
Lemma silent_app p a b : silent_nodes p (a ++ b) -> silent_nodes p b.
Proof. induction a as [|n a IH]; [auto|]. intros [_ H]. exact (IH H). Qed.
Lemma F2_in {A B} (P : A -> B -> Prop) xs ys : Forall2 P xs ys -> forall b, List.In b ys -> exists a, List.In a xs /\ P a b.
Proof. induction 1 as [|a b xs ys H _ IH]; intros b' Hb; [destruct Hb|]. destruct Hb as [<-|Hb]; [exists a; cbn; auto|]. destruct (IH b' Hb) as (a' & ? & ?). exists a'. cbn; auto. Qed.
Theorem document_initial {E : Env} (Hnames : name_table E) (p : part) fuel mode lenient dep m ns vb (w : world E) : m + dep <= fuel ->
  document E (alone E mode m) lenient dep ns vb w -> (lenient = true -> mode <> StrictErrorMode) -> silent_nodes p ns ->
  exists s log, parse (S fuel) mode (flat_map tokens ns) TermEOF = PSvg s None log /\ all_have p (initial E p) s.
Proof.
  intros Hm Hd Hl Hs. destruct (document_alone Hnames fuel mode lenient dep m ns vb w Hm Hd Hl) as (s & log & H & (_ & _ & _ & S4 & S5) & _).
  exists s, log. split; [exact H|].
  assert (K : kept p (initial E p) w).
  { destruct Hd as (pre & attrs & kids & post & st & t & u & -> & _ & _ & H4 & _ & H6). destruct (silent_app _ _ _ Hs) as [[Ha Hk] _].
    apply (proj2 (sem_kept p (initial E p) _ vb lenient dep) st kids (world0 E) w H6); [|exact Hk|].
    - rewrite (styled_silent p _ _ _ _ _ H4 Ha). destruct p; reflexivity.
    - split; [constructor|discriminate]. }
  destruct K as [K1 K2]. split.
  - intros sp Hin. destruct (F2_in _ _ _ S4 sp Hin) as (f & Hf & (Hst & _)). rewrite Hst. rewrite Forall_forall in K1. exact (K1 f Hf).
  - intros id mk sp Hid Hin. specialize (S5 id). rewrite Hid in S5. destruct (w_masks E w id) as [[b figs]|] eqn:Hw; [|destruct S5].
    destruct S5 as (_ & _ & S5). destruct (F2_in _ _ _ S5 sp Hin) as (f & Hf & (Hst & _)). rewrite Hst. pose proof (K2 _ _ _ Hw) as K. rewrite Forall_forall in K. exact (K f Hf).
Qed.

Theorem document_svg_initial {E : Env} (Hnames : name_table E) (p : part) fuel mode lenient dep m ns vb (w : world E) : p <> StrokeWidth -> p <> LineJoin -> m + dep <= fuel ->
  document E (alone E mode m) lenient dep ns vb w -> (lenient = true -> mode <> StrictErrorMode) -> silent_nodes p ns ->
  exists s log, parse (S fuel) mode (flat_map tokens ns) TermEOF = PSvg s None log /\ all_have p (svg_initial E p) s.
Proof.
  intros H1 H2. replace (svg_initial E p) with (initial E p) by (destruct p; try reflexivity; contradiction). exact (document_initial Hnames p fuel mode lenient dep m ns vb w).
Qed.
From Verif Require Import ProofsF64.
Theorem document_not_svg (O : Oracles) (Hnames : name_table (F64 O)) (p : part) fuel mode lenient dep m ns vb (w : world (F64 O)) : p = StrokeWidth \/ p = LineJoin -> m + dep <= fuel ->
  document (F64 O) (alone (F64 O) mode m) lenient dep ns vb w -> (lenient = true -> mode <> StrictErrorMode) -> silent_nodes p ns -> w_figs (F64 O) w <> [] ->
  exists s log, parse (S fuel) mode (flat_map tokens ns) TermEOF = PSvg s None log /\ ~ all_have p (svg_initial (F64 O) p) s.
Proof.
  intros Hp Hm Hd Hl Hs Hw. destruct (document_initial Hnames p fuel mode lenient dep m ns vb w Hm Hd Hl Hs) as (s & log & H & [K _]).
  destruct (document_alone Hnames fuel mode lenient dep m ns vb w Hm Hd Hl) as (s' & log' & H' & (_ & _ & _ & S4 & _) & _). rewrite H in H'. injection H' as <- <-.
  exists s, log. split; [exact H|]. intros [K' _].
  assert (Hx : exists sp, List.In sp (sv_paths s)).
  { clear -S4 Hw. destruct S4 as [|a b l l' _ _]; [destruct (Hw eq_refl)|]. eexists. left. reflexivity. }
  destruct Hx as (sp & Hin). pose proof (K sp Hin) as Q. rewrite (K' sp Hin) in Q. clear -Q Hp.
  destruct Hp as [-> | ->]; [|discriminate]. cbn in Q. vm_compute in Q. discriminate.
Qed.
