(** * ProofsErase: attributes that have no effect, or only one on masks *)
From Coq Require Import Lia.
From Verif Require Export SpecErase ProofsStyle ProofsAttrs ProofsMasks.
Local Open Scope go_scope.

Section RelV.
Context {S : Type} (R : S -> S -> Prop).
Definition relV {A B} (V : A -> B -> Prop) (m1 : M S A) (m2 : M S B) : Prop := forall s1 s2, R s1 s2 ->
  match m1 s1, m2 s2 with
  | (t1, Ret a), (t2, Ret b) => V a b /\ R t1 t2
  | (t1, Err e), (t2, Err e') => e = e' /\ R t1 t2
  | (t1, Panic), (t2, Panic) => R t1 t2
  | (t1, NoFuel), (t2, NoFuel) => R t1 t2
  | _, _ => False
  end.
Lemma rv_ret {A B} (V : A -> B -> Prop) a b : V a b -> relV V (ret a) (ret b). Proof. intros H s1 s2 Hs. cbn. auto. Qed.
Lemma rv_raise {A B} (V : A -> B -> Prop) e : relV V (raise e) (raise e). Proof. intros s1 s2 Hs. cbn. auto. Qed.
Lemma rv_nofuel {A B} (V : A -> B -> Prop) : relV V nofuel nofuel. Proof. intros s1 s2 Hs. cbn. auto. Qed.
Lemma rv_panic {A B} (V : A -> B -> Prop) : relV V gopanic gopanic. Proof. intros s1 s2 Hs. cbn. auto. Qed.
Lemma rv_lift {A} (o : outcome A) : relV eq (lift o) (lift o). Proof. intros s1 s2 Hs. unfold lift. destruct o; auto. Qed.
Lemma rv_gets {A} (f : S -> A) : (forall s t, R s t -> f s = f t) -> relV eq (gets f) (gets f). Proof. intros H s1 s2 Hs. cbn. auto. Qed.
Lemma rv_modify f g : (forall s t, R s t -> R (f s) (g t)) -> relV eq (modify f) (modify g). Proof. intros H s1 s2 Hs. cbn. auto. Qed.
Lemma rv_bind {A A' B B'} (V : A -> A' -> Prop) (W : B -> B' -> Prop) m1 m2 k1 k2 :
  relV V m1 m2 -> (forall a b, V a b -> relV W (k1 a) (k2 b)) -> relV W (bind m1 k1) (bind m2 k2).
Proof.
  intros Hm Hk s1 s2 Hs. specialize (Hm s1 s2 Hs). unfold bind.
  destruct (m1 s1) as [t1 [a|e| |]], (m2 s2) as [t2 [b|e'| |]]; try contradiction; auto. destruct Hm as [Hv Hr]. exact (Hk a b Hv t1 t2 Hr).
Qed.
Lemma rv_bindE {A B B'} (W : B -> B' -> Prop) (m1 m2 : M S A) k1 k2 :
  relV eq m1 m2 -> (forall a, relV W (k1 a) (k2 a)) -> relV W (bind m1 k1) (bind m2 k2).
Proof. intros Hm Hk. eapply rv_bind; [exact Hm|]. intros a b <-. apply Hk. Qed.
Lemma rv_get {B B'} (W : B -> B' -> Prop) (k1 : S -> M S B) (k2 : S -> M S B') : (forall s1 s2, R s1 s2 -> relV W (k1 s1) (k2 s2)) ->
  relV W (bind (gets (fun c => c)) k1) (bind (gets (fun c => c)) k2).
Proof. intros H s1 s2 Hs. exact (H s1 s2 Hs s1 s2 Hs). Qed.
Lemma rv_if {A B} (V : A -> B -> Prop) (b : bool) m1 m2 n1 n2 : relV V m1 m2 -> relV V n1 n2 -> relV V (if b then m1 else n1) (if b then m2 else n2).
Proof. destruct b; auto. Qed.
Lemma rv_loop fuel : forall i step bound (b1 b2 : nat -> M S unit), (forall i, relV eq (b1 i) (b2 i)) -> relV eq (loop fuel i step bound b1) (loop fuel i step bound b2).
Proof. induction fuel as [|fuel IH]; intros i step bound b1 b2 Hb; cbn [loop]; destruct (i <? bound); auto using rv_ret, rv_nofuel, rv_bindE. Qed.
Lemma rv_foldM {A L} (f g : L -> A -> M S L) xs : forall l, (forall l a, relV eq (f l a) (g l a)) -> relV eq (foldM f l xs) (foldM g l xs).
Proof. induction xs; intros l H; cbn [foldM]; auto using rv_ret, rv_bindE. Qed.
Lemma rv_mapM {A} (f g : A -> M S unit) l : (forall a, relV eq (f a) (g a)) -> relV eq (mapM f l) (mapM g l).
Proof. intros H. induction l; cbn [mapM]; auto using rv_ret, rv_bindE. Qed.
Lemma rv_attempt (m1 m2 : M S unit) : relV eq m1 m2 -> relV eq (attempt m1) (attempt m2).
Proof.
  intros Hm s1 s2 Hs. specialize (Hm s1 s2 Hs). unfold attempt.
  destruct (m1 s1) as [t1 [a|e| |]], (m2 s2) as [t2 [b|e'| |]]; try contradiction; auto; destruct Hm; subst; auto.
Qed.
Lemma rv_deferred {A B} (V : A -> B -> Prop) f g m1 m2 : relV V m1 m2 -> (forall s t, R s t -> R (f s) (g t)) -> relV V (deferred f m1) (deferred g m2).
Proof.
  intros Hm Hf s1 s2 Hs. specialize (Hm s1 s2 Hs). unfold deferred.
  destruct (m1 s1) as [t1 [a|e| |]], (m2 s2) as [t2 [b|e'| |]]; try contradiction; auto; destruct Hm; subst; auto.
Qed.
End RelV.

Section Erase.
Context {E : Env} (mk : bool).
Notation cursor := (cursor E).
Notation style := (style E).
Notation svg := (svg E).
Notation C := (@C E).
(** the declarations that are dropped *)
Definition drp (k v : string) : Prop := if mk then mask_decl k v else unknown_decl k v.
Definition Rst (s1 s2 : style) : Prop := exists sl, s2 = s_set_masks sl s1 /\ (mk = false -> sl = st_masks s1).
Definition Rpath (p1 p2 : svgPath E) : Prop := sp_path p1 = sp_path p2 /\ Rst (sp_style p1) (sp_style p2).
Definition Rmask (m1 m2 : svgMask E) : Prop :=
  exists ps, m2 = mkMask (mk_id m1) (mk_x m1) (mk_y m1) (mk_w m1) (mk_h m1) ps (mk_transform m1) /\ Forall2 Rpath (mk_paths m1) ps.
Definition Rkv (p1 p2 : string * svgMask E) : Prop := fst p1 = fst p2 /\ Rmask (snd p1) (snd p2).
Definition Rdef (d1 d2 : definition) : Prop := d_id d1 = d_id d2 /\ d_tag d1 = d_tag d2 /\ fewer drp (d_attrs d1) (d_attrs d2).
Definition Rdefs (p1 p2 : string * list definition) : Prop := fst p1 = fst p2 /\ Forall2 Rdef (snd p1) (snd p2).
Definition Ropt (o1 o2 : option (svgMask E)) : Prop := match o1, o2 with Some m1, Some m2 => Rmask m1 m2 | None, None => True | _, _ => False end.
Inductive Rsvg : svg -> svg -> Prop :=
| rsvg vb ti de p1 p2 tr m1 m2 w h gr d1 d2 h1 h2 : Forall2 Rpath p1 p2 -> Forall2 Rkv m1 m2 -> Forall2 Rdefs d1 d2 -> (mk = false -> h1 = h2) ->
    Rsvg (mkSvg vb ti de p1 tr m1 w h gr d1 h1) (mkSvg vb ti de p2 tr m2 w h gr d2 h2).
Inductive Re : cursor -> cursor -> Prop :=
| re pc s1 s2 t1 t2 g gh b1 b2 b3 b4 b5 d1 d2 m1 m2 : Rsvg s1 s2 -> Forall2 Rst t1 t2 -> Forall2 Rdef d1 d2 -> Ropt m1 m2 ->
    Re (mkCur pc s1 t1 g gh b1 b2 b3 b4 b5 d1 m1) (mkCur pc s2 t2 g gh b1 b2 b3 b4 b5 d2 m2).
Notation rv := (relV Re).
Notation self m := (relV Re eq m m).

Ltac inv H := destruct H.
Lemma re_liftP {A} (m : M (pcur E) A) : self (liftP m).
Proof. intros c1 c2 [pc s1 s2 t1 t2 g gh b1 b2 b3 b4 b5 d1 d2 m1 m2 H1 H2 H3 H4]. unfold liftP. cbn. destruct (m pc) as [pc' [a|e| |]]; repeat split; assumption. Qed.
Lemma re_onSvg f : (forall s1 s2, Rsvg s1 s2 -> Rsvg (f s1) (f s2)) -> self (onSvg f).
Proof. intros Hf. apply rv_modify. intros c1 c2 [pc s1 s2 t1 t2 g gh b1 b2 b3 b4 b5 d1 d2 m1 m2 H1 H2 H3 H4]. cbn. constructor; auto. Qed.
Lemma re_topStyle : rv Rst topStyle topStyle.
Proof.
  intros c1 c2 [pc s1 s2 t1 t2 g gh b1 b2 b3 b4 b5 d1 d2 m1 m2 H1 H2 H3 H4]. unfold topStyle. cbn.
  pose proof H2 as H2'. destruct H2 as [|x y l l' Hx Hl]; [constructor; auto|]. split; [exact Hx|constructor; auto].
Qed.
Lemma re_popStyle : self popStyle.
Proof.
  intros c1 c2 [pc s1 s2 t1 t2 g gh b1 b2 b3 b4 b5 d1 d2 m1 m2 H1 H2 H3 H4]. unfold popStyle. cbn.
  pose proof H2 as H2'. destruct H2 as [|x y l l' Hx Hl]; [constructor; auto|]. split; [reflexivity|constructor; auto].
Qed.
Ltac recase := intros c1 c2 [pc s1 s2 t1 t2 g gh b1 b2 b3 b4 b5 d1 d2 m1 m2 H1 H2 H3 H4].
Lemma re_gets {A} (f : cursor -> A) : (forall c1 c2, Re c1 c2 -> f c1 = f c2) -> self (gets f). Proof. apply rv_gets. Qed.
Lemma re_vb c1 c2 : Re c1 c2 -> sv_viewBox (c_svg c1) = sv_viewBox (c_svg c2).
Proof. intros [pc s1 s2 t1 t2 g gh b1 b2 b3 b4 b5 d1 d2 m1 m2 [vb ti de p1 p2 tr k1 k2 w h gr e1 e2 h1 h2 P1 P2 P3 P4] H2 H3 H4]. reflexivity. Qed.
Lemma re_cParseUnit s p : self (cParseUnit s p).
Proof. intros c1 c2 H. unfold cParseUnit. rewrite (re_vb _ _ H). destruct (resolveUnit _ s p); auto. Qed.
Lemma re_handleError msg : self (handleError msg).
Proof.
  unfold handleError. apply rv_bindE; [apply rv_gets; recase; reflexivity|]. intros []; [apply rv_raise|apply re_liftP|apply rv_ret; reflexivity] || intros []; auto using rv_raise, re_liftP, rv_ret.
Qed.
Lemma re_readGradURL v d : self (readGradURL v d).
Proof.
  unfold readGradURL. apply rv_if; [|apply rv_ret; reflexivity]. apply rv_bindE; [apply rv_lift|]. intros s. cbv zeta.
  apply rv_if; [|apply rv_ret; reflexivity]. apply rv_bindE; [apply rv_lift|]. intros id. apply rv_get.
  intros c1 c2 [pc s1 s2 t1 t2 g gh b1 b2 b3 b4 b5 d1 d2 m1 m2 [vb ti de p1 p2 tr k1 k2 w h gr e1 e2 h1 h2 P1 P2 P3 P4] H2 H3 H4]. cbn [c_svg sv_grads c_gheap].
  destruct (mget id gr); [|apply rv_ret; reflexivity]. apply rv_bindE; [apply rv_lift|]. intros. apply rv_ret. reflexivity.
Qed.
Lemma re_parseDashes l : self (parseDashes l).
Proof. induction l; cbn [parseDashes]; [apply rv_ret; reflexivity|]. apply rv_bindE; [apply re_cParseUnit|]. intros d. apply rv_bindE; [exact IHl|]. intros. apply rv_ret. reflexivity. Qed.
Lemma re_points : self (gets (fun c : cursor => pc_points (c_pc c))). Proof. apply rv_gets. recase. reflexivity. Qed.
Lemma re_transformStep m t : self (transformStep m t).
Proof.
  unfold transformStep. cbv zeta. apply rv_if; [apply rv_ret; reflexivity|]. destruct (split1 "(" (trimSpace t)) as [|x [|y [|z r]]]; try apply rv_raise.
  apply rv_if; [apply rv_raise|]. apply rv_bindE; [apply re_liftP|]. intros _. apply rv_bindE; [apply re_points|]. intros ps. apply rv_lift.
Qed.
Lemma rst_transform s1 s2 : Rst s1 s2 -> st_transform s1 = st_transform s2. Proof. intros (sl & -> & _). reflexivity. Qed.
Lemma re_parseTransform v : self (parseTransform v).
Proof.
  unfold parseTransform. eapply rv_bind; [apply re_topStyle|]. intros a b Hab. rewrite (rst_transform _ _ Hab). apply rv_foldM. apply re_transformStep.
Qed.
Lemma re_appendStr x y id : (mk = false -> x = y) -> rv (fun a b => mk = false -> a = b) (appendStr x id) (appendStr y id).
Proof.
  intros Hxy c1 c2 [pc s1 s2 t1 t2 g gh b1 b2 b3 b4 b5 d1 d2 m1 m2 H1 H2 H3 H4]. unfold appendStr. cbn [c_svg].
  destruct H1 as [vb ti de p1 p2 tr k1 k2 w h gr e1 e2 h1 h2 P1 P2 P3 P4]. cbn [sv_mheap].
  destruct (sl_len x <? sl_cap x) eqn:Hx, (sl_len y <? sl_cap y) eqn:Hy; cbn.
  all: split; [intros Hf; try (rewrite (Hxy Hf) in *); try rewrite (P4 Hf); congruence|].
  all: constructor; auto; constructor; auto; intros Hf; try rewrite (Hxy Hf) in *; try rewrite (P4 Hf); congruence.
Qed.
(** changing a part other than the masks *)
Lemma rst_upd f s1 s2 : (forall sl s, f (s_set_masks sl s) = s_set_masks sl (f s) /\ st_masks (f s) = st_masks s) -> Rst s1 s2 -> Rst (f s1) (f s2).
Proof. intros Hf (sl & -> & H). destruct (Hf sl s1) as [H1 H2]. exists sl. split; [exact H1|]. rewrite H2. exact H. Qed.
Lemma re_readStyleAttr s1 s2 k v : Rst s1 s2 -> rv Rst (readStyleAttr s1 k v) (readStyleAttr s2 k v).
Proof.
  intros Hs. unfold readStyleAttr.
  assert (Hfi : st_filler s1 = st_filler s2) by (destruct Hs as (sl & -> & _); reflexivity).
  assert (Hli : st_liner s1 = st_liner s2) by (destruct Hs as (sl & -> & _); reflexivity).
  assert (Hjo : st_join s1 = st_join s2) by (destruct Hs as (sl & -> & _); reflexivity).
  assert (Ho1 : st_fillOpacity s1 = st_fillOpacity s2) by (destruct Hs as (sl & -> & _); reflexivity).
  assert (Ho2 : st_lineOpacity s1 = st_lineOpacity s2) by (destruct Hs as (sl & -> & _); reflexivity).
  rewrite Hfi, Hli, Hjo, Ho1. cbv zeta.
  assert (U : forall f, (forall sl s, f (s_set_masks sl s) = s_set_masks sl (f s) /\ st_masks (f s) = st_masks s) -> relV Re Rst (ret (f s1)) (ret (f s2)))
    by (intros f Hf; apply rv_ret, rst_upd; assumption).
  Ltac u1 U := apply U; intros; split; reflexivity.
  apply rv_if. { apply rv_bindE; [apply re_readGradURL|]. intros [g|]; [u1 U|]. apply rv_bindE; [apply rv_lift|]. intros col. u1 U. }
  apply rv_if. { apply rv_if; [u1 U|]. apply rv_if; [u1 U|]. apply rv_bindE; [apply re_handleError|]. intros _. apply rv_ret, Hs. }
  apply rv_if. { apply rv_bindE; [apply re_readGradURL|]. intros [g|]; [u1 U|]. apply rv_bindE; [apply rv_lift|]. intros col. u1 U. }
  apply rv_if. { destruct (gapOf v); [u1 U|]. apply rv_bindE; [apply re_handleError|]. intros _. apply rv_ret, Hs. }
  apply rv_if. { destruct (capOf v); [u1 U|]. apply rv_bindE; [apply re_handleError|]. intros _. apply rv_ret, Hs. }
  apply rv_if. { destruct (capOf v); [u1 U|]. apply rv_bindE; [apply re_handleError|]. intros _. apply rv_ret, Hs. }
  apply rv_if. { destruct (joinOf v); [u1 U|]. apply rv_bindE; [apply re_handleError|]. intros _. apply rv_ret, Hs. }
  apply rv_if. { apply rv_bindE; [apply rv_lift|]. intros f. u1 U. }
  apply rv_if. { apply rv_bindE; [apply re_cParseUnit|]. intros f. u1 U. }
  apply rv_if. { apply rv_bindE; [apply re_cParseUnit|]. intros f. u1 U. }
  apply rv_if. { apply rv_if; [|apply rv_ret, Hs]. apply rv_bindE; [apply re_parseDashes|]. intros f. u1 U. }
  apply rv_if.
  { apply rv_bindE; [apply rv_lift|]. intros f. destruct (negb (String.eqb k "stroke-opacity")), (negb (String.eqb k "fill-opacity")); cbn [st_lineOpacity s_set_fillOpacity]; rewrite ?Ho2.
    - apply (U (fun s => s_set_lineOpacity (fmul E (st_lineOpacity s2) f) (s_set_fillOpacity (fmul E (st_fillOpacity s2) f) s))). intros; split; reflexivity.
    - u1 U. - u1 U. - apply rv_ret, Hs. }
  apply rv_if. { apply rv_bindE; [apply re_parseTransform|]. intros f. u1 U. }
  apply rv_if; [|apply rv_ret, Hs].
  apply rv_bindE; [apply rv_lift|]. intros id. eapply rv_bind; [apply re_appendStr|].
  - destruct Hs as (sl & -> & H). intros Hf. symmetry. exact (H Hf).
  - intros a b Hab. apply rv_ret. destruct Hs as (sl & -> & H). exists b. split; [reflexivity|]. intros Hf. symmetry. exact (Hab Hf).
Qed.
Lemma re_stylePair s1 s2 p : Rst s1 s2 -> rv Rst (stylePair s1 p) (stylePair s2 p).
Proof. intros Hs. unfold stylePair. destruct (split1 ":" p) as [|k [|v r]]; [apply rv_ret, Hs|apply rv_ret, Hs|apply re_readStyleAttr, Hs]. Qed.
Lemma re_folds l : forall s1 s2, Rst s1 s2 -> rv Rst (foldM stylePair s1 l) (foldM stylePair s2 l).
Proof. induction l; intros s1 s2 Hs; cbn [foldM]; [apply rv_ret, Hs|]. eapply rv_bind; [apply re_stylePair, Hs|]. intros x y Hxy. apply IHl, Hxy. Qed.

(** ** dropped declarations *)
Definition vanishes (A : Type) (f : style -> A -> C style) (x : A) : Prop :=
  forall s1 s2 c1 c2, Rst s1 s2 -> Re c1 c2 -> exists c1' s1', f s1 x c1 = (c1', Ret s1') /\ Rst s1' s2 /\ Re c1' c2.
Lemma unknown_reads (st : style) k v c : parts_named k = [] -> readStyleAttr st k v c = (c, Ret st).
Proof.
  intros Hk. unfold readStyleAttr. unfold parts_named in Hk. cbn [List.find fst] in Hk.
  repeat match type of Hk with context [String.eqb k ?n] => destruct (String.eqb k n) eqn:?; [discriminate Hk|] end.
  cbn [orb]. reflexivity.
Qed.
Lemma selector_ok v : v = "none"%string \/ (exists id, lacks ")" id = true /\ v = ("url(#" ++ id ++ ")")%string) -> exists id, parseSelector v = Ret id.
Proof. intros [->|(id & H & ->)]; [exists EmptyString; reflexivity|]. exists id. apply selector_url, H. Qed.
Lemma drop_decl k v : drp k v -> vanishes (string * string) readDecl (k, v).
Proof.
  intros Hd s1 s2 c1 c2 Hs Hc. unfold readDecl. cbn [fst snd].
  assert (Hk : parts_named k = [] \/ mk = true /\ k = "mask"%string /\ exists id, parseSelector v = Ret id).
  { unfold drp in Hd. destruct mk; [|left; exact Hd]. destruct Hd as [Hd|[Hd Hv]]; [left; exact Hd|]. right. split; [reflexivity|]. split; [exact Hd|]. apply selector_ok, Hv. }
  destruct Hk as [Hk|(Hm & -> & id & Hid)].
  - exists c1, s1. rewrite unknown_reads by exact Hk. auto.
  - unfold readStyleAttr. cbn [String.eqb Ascii.eqb Bool.eqb orb]. unfold lift. rewrite Hid. unfold bind at 1. cbn [fst snd]. unfold bind, appendStr.
    destruct c1 as [pc sv t1 g gh b1 b2 b3 b4 b5 d1 m1]. inversion Hc as [pc' s1' s2' t1' t2 g' gh' b1' b2' b3' b4' b5' d1' d2 m1' m2 H1 H2 H3 H4]; subst.
    destruct H1 as [vb ti de p1 p2 tr k1 k2 w h gr e1 e2 h1 h2 P1 P2 P3 P4]. destruct Hs as (sl & -> & _).
    destruct (sl_len (st_masks s1) <? sl_cap (st_masks s1)); eexists; eexists; (split; [reflexivity|]); (split; [exists sl; split; [reflexivity|congruence]|]);
      constructor; auto; constructor; auto; congruence.
Qed.
Lemma drop_foldM {A} (f : style -> A -> C style) (x : A) l1 (m2 : style -> C style) s1 s2 : vanishes A f x -> Rst s1 s2 ->
  (forall s, Rst s s2 -> rv Rst (foldM f s l1) (m2 s2)) -> rv Rst (foldM f s1 (x :: l1)) (m2 s2).
Proof.
  intros Hv Hs Hm c1 c2 Hc. destruct (Hv s1 s2 c1 c2 Hs Hc) as (c1' & s1' & H1 & H2 & H3). cbn [foldM]. unfold bind. rewrite H1. apply (Hm s1' H2 c1' c2 H3).
Qed.
Lemma re_decls ds ds' : fewer_decls drp ds ds' -> forall s1 s2, Rst s1 s2 -> rv Rst (foldM readDecl s1 ds) (foldM readDecl s2 ds').
Proof.
  induction 1 as [|d l l' _ IH|k v l l' Hd _ _ IH]; intros s1 s2 Hs.
  - apply rv_ret, Hs.
  - cbn [foldM]. eapply rv_bind; [apply re_readStyleAttr, Hs|]. intros a b Hab. apply IH, Hab.
  - apply (drop_foldM readDecl (k, v) l (fun s => foldM readDecl s l')); [apply drop_decl, Hd|exact Hs|]. intros s Hs'. apply IH, Hs'.
Qed.
Lemma rv_ext {A B} (V : A -> B -> Prop) (m1 m1' : C A) (m2 m2' : C B) : (forall c, m1 c = m1' c) -> (forall c, m2 c = m2' c) -> rv V m1' m2' -> rv V m1 m2.
Proof. intros H1 H2 H c1 c2 Hc. rewrite H1, H2. exact (H c1 c2 Hc). Qed.
Lemma re_pairs l l' : fewer drp l l' -> forall s1 s2, Rst s1 s2 -> rv Rst (foldM stylePair s1 (stylePairs (E := E) l)) (foldM stylePair s2 (stylePairs (E := E) l')).
Proof.
  induction 1 as [|a l l' _ IH|n v k w l l' Hn Hg Pn Cn Hd _ IH|v v' ds ds' l l' Hv Hv' Hd _ IH]; intros s1 s2 Hs.
  - apply rv_ret, Hs.
  - cbn [stylePairs flat_map]. eapply rv_ext; [intros c; apply foldM_app|intros c; apply foldM_app|]. eapply rv_bind; [apply re_folds, Hs|]. intros x y Hxy. apply IH, Hxy.
  - unfold stylePairs. cbn [flat_map a_name a_val]. rewrite toLower_low by (eapply padded_ascii; eauto). apply String.eqb_neq in Hn. rewrite Hn. cbn [app].
    apply (drop_foldM stylePair _ _ (fun s => foldM stylePair s (stylePairs (E := E) l'))); [|exact Hs|intros s Hs'; apply IH, Hs'].
    clear -Hd Pn Cn. intros s1 s2 c1 c2 Hs Hc. destruct Hd as [(Hd & Pv & Cv)|Hk].
    + rewrite (decl_text_reads _ [(low_case k, w)]) by (constructor; assumption). cbn [foldM]. destruct (drop_decl _ _ Hd s1 s2 c1 c2 Hs Hc) as (c1' & s1' & K1 & K2).
      exists c1', s1'. unfold bind. rewrite K1. auto.
    + exists c1, s1. split; [|auto]. unfold stylePair. destruct (split_two n v Cn) as (q & -> & Hq).
      destruct q as [|v' q]; [exact (match split1_ne _ _ Hq with end)|]. rewrite (key_reads n k Pn). apply unknown_reads, Hk.
  - unfold stylePairs. cbn [flat_map a_name a_val]. rewrite toLower_low by reflexivity. change (String.eqb (low_case "style") "style") with true. cbv iota.
    eapply rv_ext; [intros c; apply foldM_app|intros c; apply foldM_app|].
    eapply rv_bind; [|intros x y Hxy; apply IH, Hxy].
    eapply rv_ext; [intros c; apply (style_text_reads _ _ Hv)|intros c; apply (style_text_reads _ _ Hv')|]. apply re_decls; assumption.
Qed.
Lemma re_pushStyle l l' : fewer drp l l' -> rv eq (pushStyle l) (pushStyle l').
Proof.
  intros Hl. unfold pushStyle. eapply rv_bind; [apply re_topStyle|]. intros a b Hab. eapply rv_bind; [apply re_pairs; [exact Hl|exact Hab]|].
  intros x y Hxy. apply rv_modify. intros c1 c2 [pc s1 s2 t1 t2 g gh b1 b2 b3 b4 b5 d1 d2 m1 m2 H1 H2 H3 H4]. constructor; auto.
Qed.

(** ** elements *)
Lemma re_attrs {L} (f : L -> attr -> C L) l l' : (forall x a, self (f x a)) -> (forall x a c, ~ List.In (a_name a) element_names -> f x a c = (c, Ret x)) ->
  fewer drp l l' -> forall x, rv eq (foldM f x l) (foldM f x l').
Proof.
  intros Hs Hn. induction 1 as [|a l l' _ IH|n v k w l l' H1 Hg Pn Cn Hd _ IH|v v' ds ds' l l' Hv Hv' Hd _ IH]; intros x.
  - apply rv_ret. reflexivity.
  - cbn [foldM]. apply rv_bindE; [apply Hs|exact IH].
  - intros c1 c2 Hc. cbn [foldM]. unfold bind. rewrite Hn by exact Hg. apply (IH x c1 c2 Hc).
  - intros c1 c2 Hc. cbn [foldM]. unfold bind. rewrite !Hn by (vm_compute; intuition discriminate). apply (IH x c1 c2 Hc).
Qed.
Lemma not_named n a : ~ List.In (a_name a) element_names -> List.In n element_names -> is a n = false.
Proof. intros H1 H2. unfold is. apply String.eqb_neq. intros H3. rewrite H3 in H1. exact (H1 H2). Qed.
Ltac others H := rewrite !(fun n K => not_named n _ H K) by (vm_compute; tauto).
Ltac step1 :=
  match goal with
  | |- forall _, relV _ _ _ _ => intros ?
  | |- relV _ _ (ret _) _ => apply rv_ret; reflexivity
  | |- relV _ _ (raise _) _ => apply rv_raise
  | |- relV _ _ (lift _) _ => apply rv_lift
  | |- relV _ _ nofuel _ => apply rv_nofuel
  | |- relV _ _ (if _ then _ else _) _ => apply rv_if
  | |- relV _ _ (loop _ _ _ _ _) _ => apply rv_loop
  | |- relV _ _ (attempt _) _ => apply rv_attempt
  | |- relV _ _ (liftP _) _ => apply re_liftP
  | |- relV _ _ (cGetPoints _) _ => apply re_liftP
  | |- relV _ _ (onCPath _) _ => apply re_liftP
  | |- relV _ _ cPoints _ => apply re_points
  | |- relV _ _ (cParseUnit _ _) _ => apply re_cParseUnit
  | |- relV _ _ (bind _ _) _ => apply rv_bindE
  | |- relV _ _ (match ?x with _ => _ end) _ => destruct x
  | |- relV _ _ (let _ := _ in _) _ => cbv zeta
  end.
Ltac svg1 := apply re_onSvg; intros ? ? [? ? ? ? ? ? ? ? ? ? ? ? ? ? ? ? ? ? ?]; constructor; auto.
Lemma re_curXY : self curXY. Proof. apply rv_gets. recase. reflexivity. Qed.
Lemma re_svgF l l' : fewer drp l l' -> rv eq (svgF l) (svgF l').
Proof.
  intros Hl. unfold svgF. apply rv_bindE; [svg1|]. intros _. apply rv_bindE.
  - apply re_attrs; [| |exact Hl].
    + intros [w h] a. unfold svgAttr. repeat (step1 || svg1).
    + intros [w h] a c Ha. unfold svgAttr. others Ha. reflexivity.
  - intros [w h]. cbv zeta. apply re_onSvg. intros s1 s2 [vb ti de p1 p2 tr k1 k2 w' h' gr e1 e2 h1 h2 P1 P2 P3 P4]. constructor; auto.
Qed.
Lemma re_rectF fuel l l' : fewer drp l l' -> rv eq (rectF fuel l) (rectF fuel l').
Proof.
  intros Hl. unfold rectF. apply rv_bindE.
  - apply re_attrs; [| |exact Hl].
    + intros [[[[[x y] w] h] rx] ry] a. unfold rectAttr. repeat step1.
    + intros [[[[[x y] w] h] rx] ry] a c Ha. unfold rectAttr. others Ha. reflexivity.
  - intros [[[[[x y] w] h] rx] ry]. cbv zeta. apply rv_if; [step1|]. apply rv_bindE; [apply re_curXY|]. intros [cx cy].
    apply rv_bindE; [apply rv_gets; recase; reflexivity|]. intros p. repeat step1.
Qed.
Lemma re_maskF l l' : fewer drp l l' -> rv eq (maskF l) (maskF l').
Proof.
  intros Hl. unfold maskF. apply rv_bindE.
  - apply re_attrs; [| |exact Hl].
    + intros [[[[x y] w] h] rx] a. unfold maskAttr. repeat step1.
    + intros [[[[x y] w] h] rx] a c Ha. unfold maskAttr. others Ha. reflexivity.
  - intros [[[[x y] w] h] rx]. apply rv_modify. recase. constructor; auto. cbn. eexists. split; [reflexivity|]. constructor.
Qed.
Lemma re_circleF l l' : fewer drp l l' -> rv eq (circleF l) (circleF l').
Proof.
  intros Hl. unfold circleF. apply rv_bindE.
  - apply re_attrs; [| |exact Hl].
    + intros [[[x y] w] h] a. unfold circleAttr. repeat step1.
    + intros [[[x y] w] h] a c Ha. unfold circleAttr. others Ha. reflexivity.
  - intros [[[x y] w] h]. apply rv_if; [step1|]. apply rv_bindE; [apply re_curXY|]. intros [cx cy]. apply re_liftP.
Qed.
Lemma re_lineF l l' : fewer drp l l' -> rv eq (lineF l) (lineF l').
Proof.
  intros Hl. unfold lineF. apply rv_bindE.
  - apply re_attrs; [| |exact Hl].
    + intros [[[x y] w] h] a. unfold lineAttr. repeat step1.
    + intros [[[x y] w] h] a c Ha. unfold lineAttr. others Ha. reflexivity.
  - intros [[[x y] w] h]. repeat step1.
Qed.
Lemma re_polylineF l l' : fewer drp l l' -> rv eq (polylineF l) (polylineF l').
Proof.
  intros Hl. unfold polylineF. apply rv_bindE.
  - apply re_attrs; [| |exact Hl].
    + intros x a. unfold polyAttr. repeat step1.
    + intros [] a c Ha. unfold polyAttr. others Ha. reflexivity.
  - intros _. repeat step1.
Qed.
Lemma re_polygonF l l' : fewer drp l l' -> rv eq (polygonF l) (polygonF l').
Proof. intros Hl. unfold polygonF. apply rv_bindE; [apply rv_attempt, re_polylineF, Hl|]. intros o. repeat step1. Qed.
Lemma re_pathF l l' : fewer drp l l' -> rv eq (pathF l) (pathF l').
Proof.
  unfold pathF. induction 1 as [|a l l' _ IH|n v k w l l' H1 Hg Pn Cn Hd _ IH|v v' ds ds' l l' Hv Hv' Hd _ IH]; cbn [mapM].
  - step1.
  - apply rv_bindE; [repeat step1|]. intros _. exact IH.
  - rewrite (not_named "d" (mkAttr n v) Hg) by (vm_compute; tauto). exact IH.
  - exact IH.
Qed.
Lemma re_onGrad f : self (onGrad f).
Proof.
  recase. unfold onGrad. cbn. destruct g as [p|]; [|constructor; auto]. destruct (nth_error gh p); [|constructor; auto]. split; [reflexivity|]. constructor; auto.
Qed.
Lemma re_registerGrad id : self (registerGrad id).
Proof.
  intros c1 c2 [pc s1 s2 t1 t2 g gh b1 b2 b3 b4 b5 d1 d2 m1 m2 [vb ti de p1 p2 tr k1 k2 w h gr e1 e2 h1 h2 P1 P2 P3 P4] H2 H3 H4].
  unfold registerGrad. cbn. destruct g as [p|]; [|constructor; auto; constructor; auto]. split; [reflexivity|]. constructor; auto. constructor; auto.
Qed.
Lemma re_theGrad : self theGrad.
Proof. recase. unfold theGrad. cbn. destruct g as [p|]; [|constructor; auto]. destruct (idx gh p); repeat split; auto. Qed.
Lemma re_newGrad : self newGrad.
Proof. apply rv_modify. intros c1 c2 Hc. pose proof (re_vb _ _ Hc) as Hv. rewrite Hv. destruct Hc. cbn. constructor; auto. Qed.
Lemma re_inGrad b : self (modify (c_set_inGrad (E := E) b)). Proof. apply rv_modify. recase. constructor; auto. Qed.
Lemma re_readGradAttr a : self (readGradAttr a).
Proof. unfold readGradAttr. cbv zeta. repeat (step1 || apply re_parseTransform || apply re_onGrad). Qed.
Lemma re_linearGradientF l l' : fewer drp l l' -> rv eq (linearGradientF l) (linearGradientF l').
Proof.
  intros Hl. unfold linearGradientF. apply rv_bindE; [apply re_inGrad|]. intros _. apply rv_bindE; [apply re_newGrad|]. intros _. apply rv_bindE.
  - apply re_attrs; [| |exact Hl].
    + intros [[[x y] w] h] a. unfold linAttr. repeat (step1 || apply re_registerGrad || apply re_readGradAttr).
    + intros [[[x y] w] h] a c Ha. unfold linAttr, readGradAttr. others Ha. unfold is in *.
      rewrite !(fun n K => not_named n a Ha K : String.eqb (a_name a) n = false) by (vm_compute; tauto). reflexivity.
  - intros [[[x y] w] h]. apply rv_bindE; [apply re_theGrad|]. intros g. repeat (step1 || apply re_onGrad).
Qed.
Lemma re_radialGradientF l l' : fewer drp l l' -> rv eq (radialGradientF l) (radialGradientF l').
Proof.
  intros Hl. unfold radialGradientF. apply rv_bindE; [apply re_inGrad|]. intros _. apply rv_bindE; [apply re_newGrad|]. intros _. apply rv_bindE.
  - apply re_attrs; [| |exact Hl].
    + intros [[[[[x y] w] h] r] fr] a. unfold radAttr. repeat (step1 || apply re_registerGrad || apply re_readGradAttr).
    + intros [[[[[x y] w] h] r] fr] a c Ha. unfold radAttr, readGradAttr. others Ha. unfold is in *.
      rewrite !(fun n K => not_named n a Ha K : String.eqb (a_name a) n = false) by (vm_compute; tauto). reflexivity.
  - intros [[[[[x y] w] h] r] fr]. cbv zeta. apply rv_bindE; [apply re_theGrad|]. intros g. repeat (step1 || apply re_onGrad).
Qed.

Lemma kvs_less ds ds' : fewer_decls drp ds ds' ->
  filter (fun d => String.eqb (fst d) "stop-color" || String.eqb (fst d) "stop-opacity") ds = filter (fun d => String.eqb (fst d) "stop-color" || String.eqb (fst d) "stop-opacity") ds'.
Proof.
  induction 1 as [|d l l' _ IH|k v l l' _ Hk _ IH]; [reflexivity| |].
  - cbn [filter]. rewrite IH. reflexivity.
  - cbn [filter fst]. destruct (String.eqb k "stop-color") eqn:H1; [apply String.eqb_eq in H1; destruct Hk; left; auto|].
    destruct (String.eqb k "stop-opacity") eqn:H2; [apply String.eqb_eq in H2; destruct Hk; right; left; auto|]. exact IH.
Qed.
Definition stop_kvs (s : string) : list attr :=
  filter (fun a => existsb (String.eqb (a_name a)) ["stop-color"; "stop-opacity"]%string) (flat_map (kv_of (E := E)) (split1 ";" s)).
Lemma append_kvs attrs : appendStyleAttrs (E := E) attrs ["stop-color"; "stop-opacity"]%string = attrs ++ stop_kvs (findStyle attrs).
Proof.
  unfold appendStyleAttrs. destruct (String.eqb (findStyle attrs) "") eqn:He; [|reflexivity].
  apply String.eqb_eq in He. rewrite He. cbn. rewrite app_nil_r. reflexivity.
Qed.
Lemma pair_inj (l l' : list attr) : map pair_of l = map pair_of l' -> l = l'.
Proof.
  revert l'. induction l as [|[n v] l IH]; intros [|[n' v'] l']; try discriminate; [reflexivity|]. cbn. intros H. injection H as -> -> H. rewrite (IH _ H). reflexivity.
Qed.
Lemma filter_pairs l : map pair_of (filter (fun a => existsb (String.eqb (a_name a)) ["stop-color"; "stop-opacity"]%string) l)
    = filter (fun d => String.eqb (fst d) "stop-color" || String.eqb (fst d) "stop-opacity") (map pair_of l).
Proof.
  induction l as [|a l IH]; [reflexivity|]. cbn [filter map fst]. change (fst (pair_of a)) with (a_name a).
  assert (H1 : existsb (String.eqb (a_name a)) ["stop-color"; "stop-opacity"]%string = String.eqb (a_name a) "stop-color" || String.eqb (a_name a) "stop-opacity")
    by (cbn [existsb]; rewrite Bool.orb_false_r; reflexivity).
  rewrite H1. destruct (String.eqb (a_name a) "stop-color" || String.eqb (a_name a) "stop-opacity"); cbn [map]; rewrite IH; reflexivity.
Qed.
Lemma stop_kvs_less v v' ds ds' : style_text v ds -> style_text v' ds' -> fewer_decls drp ds ds' -> stop_kvs v = stop_kvs v'.
Proof.
  intros H1 H2 H3. apply pair_inj. unfold stop_kvs. rewrite !filter_pairs, (style_kvs _ _ H1), (style_kvs _ _ H2). apply kvs_less, H3.
Qed.
Lemma find_less l l' : fewer drp l l' -> stop_kvs (findStyle l) = stop_kvs (findStyle l').
Proof.
  induction 1 as [|a l l' _ IH|n v k w l l' H1 Hg Pn Cn Hd _ IH|v v' ds ds' l l' Hv Hv' Hd _ IH]; cbn [findStyle a_name a_val]; [reflexivity| | |].
  - destruct (String.eqb (a_name a) "style"); [reflexivity|exact IH].
  - destruct (String.eqb n "style") eqn:Hn; [|exact IH]. apply String.eqb_eq in Hn. subst n. destruct H1. reflexivity.
  - cbn [String.eqb Ascii.eqb Bool.eqb]. eapply stop_kvs_less; eassumption.
Qed.
Lemma re_stopF l l' : fewer drp l l' -> rv eq (stopF l) (stopF l').
Proof.
  intros Hl. unfold stopF. apply rv_bindE; [apply rv_gets; recase; reflexivity|]. intros []; [|step1].
  assert (Hself : forall x a, self (stopAttr x a)) by (intros x a; unfold stopAttr; repeat step1).
  apply rv_bindE; [|intros s; apply re_onGrad].
  rewrite !append_kvs, (find_less _ _ Hl). eapply rv_ext; [intros c; apply foldM_app|intros c; apply foldM_app|].
  apply rv_bindE; [|intros x; apply rv_foldM; exact Hself].
  apply re_attrs; [exact Hself| |exact Hl]. intros x a c Ha. unfold stopAttr. others Ha. reflexivity.
Qed.
Lemma re_drawFunc fuel name df : drawFunc (E := E) fuel name = Some df -> forall l l', fewer drp l l' -> rv eq (df l) (df l').
Proof.
  unfold drawFunc. intros H l l' Hl.
  repeat match type of H with (if ?b then _ else _) = _ => destruct b; [injection H as <-|] end; try discriminate;
    auto using re_svgF, re_lineF, re_stopF, re_rectF, re_circleF, re_polylineF, re_polygonF, re_pathF, re_linearGradientF, re_radialGradientF, re_maskF.
  - unfold gF. step1.
  - unfold descF. apply rv_bindE; [apply rv_modify; recase; constructor; auto|]. intros _. svg1.
  - unfold defsF. apply rv_modify; recase; constructor; auto.
  - unfold titleF. apply rv_bindE; [apply rv_modify; recase; constructor; auto|]. intros _. svg1.
Qed.
Lemma re_useLoop draw ds ds' : (forall t df, draw t = Some df -> forall l l', fewer drp l l' -> rv eq (df l) (df l')) ->
  Forall2 Rdef ds ds' -> rv eq (useLoop draw ds) (useLoop draw ds').
Proof.
  intros Hd. induction 1 as [|d d' ds ds' (H1 & H2 & H3) _ IH]; cbn [useLoop]; [step1|]. rewrite <- H2.
  apply rv_if. { apply rv_bindE; [apply re_popStyle|]. intros _. exact IH. }
  apply rv_bindE; [apply re_pushStyle, H3|]. intros _. destruct (draw (d_tag d)) as [df|] eqn:Hdr; [|apply re_handleError].
  apply rv_bindE; [eapply Hd; eassumption|]. intros _. apply rv_bindE; [|intros _; exact IH]. apply rv_if; [apply re_popStyle|step1].
Qed.
Lemma mget_defs id (m m' : smap (list definition)) : Forall2 Rdefs m m' ->
  match mget id m, mget id m' with Some a, Some b => Forall2 Rdef a b | None, None => True | _, _ => False end.
Proof.
  induction 1 as [|[k x] [k' x'] m m' [H1 H2] _ IH]; cbn; [exact I|]. cbn in H1, H2. subst k'. destruct (String.eqb id k); [exact H2|exact IH].
Qed.
Lemma mget_masks id (m m' : smap (svgMask E)) : Forall2 Rkv m m' ->
  match mget id m, mget id m' with Some a, Some b => Rmask a b | None, None => True | _, _ => False end.
Proof.
  induction 1 as [|[k x] [k' x'] m m' [H1 H2] _ IH]; cbn; [exact I|]. cbn in H1, H2. subst k'. destruct (String.eqb id k); [exact H2|exact IH].
Qed.
Lemma re_useF fuel : forall l l', fewer drp l l' -> rv eq (useF fuel l) (useF fuel l').
Proof.
  induction fuel as [|fuel IH]; intros l l' Hl; cbn [useF]; [apply rv_nofuel|]. apply rv_bindE.
  - apply re_attrs; [| |exact Hl].
    + intros [[x y] w] a. unfold useAttr. repeat step1.
    + intros [[x y] w] a c Ha. unfold useAttr. others Ha. reflexivity.
  - intros [[href x] y]. apply rv_bindE; [apply rv_modify; recase; constructor; auto|]. intros _.
    apply rv_deferred; [|recase; constructor; auto].
    repeat (apply rv_if; [apply rv_raise|]). apply rv_bindE; [apply rv_lift|]. intros id.
    intros c1 c2 Hc. unfold bind, gets.
    assert (Hm := Hc). destruct Hm as [pc s1 s2 t1 t2 g gh b1 b2 b3 b4 b5 d1 d2 m1 m2 [vb ti de p1 p2 tr k1 k2 w h gr e1 e2 h1 h2 P1 P2 P3 P4] H2 H3 H4].
    cbn [c_svg sv_defs]. pose proof (mget_defs id _ _ P3) as K.
    destruct (mget id e1) as [x1|], (mget id e2) as [x2|]; try contradiction; [|cbn; auto].
    refine (re_useLoop _ _ _ _ K _ _ Hc). intros t df Hdf.
    destruct (String.eqb t "use"); [injection Hdf as <-; apply IH|]. exact (re_drawFunc _ _ _ Hdf).
Qed.
Lemma re_drawFuncs fuel name df : drawFuncs (E := E) fuel name = Some df -> forall l l', fewer drp l l' -> rv eq (df l) (df l').
Proof. unfold drawFuncs. destruct (String.eqb name "use"); intros H; [injection H as <-; apply re_useF|apply (re_drawFunc _ _ _ H)]. Qed.
Lemma attrID_less l l' : fewer drp l l' -> attrID l = attrID l'.
Proof.
  intros H. unfold attrID.
  assert (G : forall x, fold_left (fun id a => if is a "id" then a_val a else id) l x = fold_left (fun id a => if is a "id" then a_val a else id) l' x); [|apply G].
  induction H as [|a l l' _ IH|n v k w l l' H1 Hg Pn Cn Hd _ IH|v v' ds ds' l l' Hv Hv' Hd _ IH]; intros x; cbn [fold_left].
  - reflexivity.
  - apply IH.
  - rewrite (not_named "id" (mkAttr n v) Hg) by (vm_compute; tauto). apply IH.
  - apply IH.
Qed.
Lemma filter_keys {V} (R : string * V -> string * V -> Prop) k m m' : (forall a b, R a b -> fst a = fst b) -> Forall2 R m m' ->
  Forall2 R (filter (fun kv => negb (String.eqb k (fst kv))) m) (filter (fun kv => negb (String.eqb k (fst kv))) m').
Proof. intros Hk. induction 1 as [|a b m m' H _ IH]; [constructor|]. cbn [filter]. rewrite (Hk _ _ H). destruct (negb (String.eqb k (fst b))); [constructor; auto|exact IH]. Qed.
Lemma re_flushDefs : self flushDefs.
Proof.
  apply rv_modify. intros c1 c2 [pc s1 s2 t1 t2 g gh b1 b2 b3 b4 b5 d1 d2 m1 m2 [vb ti de p1 p2 tr k1 k2 w h gr e1 e2 h1 h2 P1 P2 P3 P4] H2 H3 H4]. cbn.
  assert (H3' := H3). destruct H3 as [|d d' l l' (K1 & K2 & K3) K4]; [constructor; auto; constructor; auto|].
  constructor; auto. constructor; auto. rewrite K1. cbn.
  unfold mput. constructor; [split; [reflexivity|exact H3']|]. apply filter_keys; [intros a b [H _]; exact H|exact P3].
Qed.
Ltac recq := intros ? ? [? ? ? ? ? ? ? ? ? ? ? ? ? ? ? ? ? ? ? ?].
Lemma re_collectPath : self collectPath.
Proof.
  unfold collectPath. apply rv_get. intros c1 c2 [pc s1 s2 t1 t2 g gh b1 b2 b3 b4 b5 d1 d2 m1 m2 H1 H2 H3 H4]. cbn [c_pc c_inMask c_mask].
  destruct (pc_path pc) as [|o q]; [step1|]. apply rv_bindE; [|intros _; apply re_liftP]. destruct b5.
  - destruct m1 as [m1|], m2 as [m2|]; try contradiction; [|step1]. destruct H4 as (ps & -> & Hp).
    eapply rv_bind; [apply re_topStyle|]. intros a b Hab. apply rv_modify. recq. constructor; auto.
    cbn. eexists. split; [reflexivity|]. cbn. apply Forall2_app; [exact Hp|]. constructor; [split; [reflexivity|exact Hab]|constructor].
  - eapply rv_bind; [apply re_topStyle|]. intros a b Hab. apply rv_modify.
    intros u1 u2 [pc' s1' s2' t1' t2' g' gh' b1' b2' b3' b4' b5' d1' d2' m1' m2' [vb ti de p1 p2 tr k1 k2 w h gr e1 e2 h1 h2 P1 P2 P3 P4] H2' H3' H4'].
    constructor; auto. constructor; auto. apply Forall2_app; [exact P1|]. constructor; [split; [reflexivity|exact Hab]|constructor].
Qed.
Lemma re_start fuel name l l' : fewer drp l l' -> rv eq (readStartElement fuel name l) (readStartElement fuel name l').
Proof.
  intros Hl. unfold readStartElement. apply rv_get. intros c1 c2 [pc s1 s2 t1 t2 g gh b1 b2 b3 b4 b5 d1 d2 m1 m2 H1 H2 H3 H4]. cbn [c_inGrad c_inDefs]. cbv zeta.
  apply rv_if.
  - rewrite (attrID_less _ _ Hl). apply rv_bindE; [apply rv_if; [apply re_flushDefs|step1]|]. intros _. apply rv_modify. recq. constructor; auto.
    apply Forall2_app; [assumption|]. constructor; [repeat split; exact Hl|constructor].
  - destruct (drawFuncs fuel name) as [df|] eqn:Hdf; [|apply re_handleError]. apply rv_bindE; [apply rv_attempt, (re_drawFuncs _ _ _ Hdf), Hl|].
    intros err. apply rv_bindE; [apply re_collectPath|]. intros _. repeat step1.
Qed.
Lemma re_end name : self (endElement name).
Proof.
  unfold endElement. apply rv_bindE; [apply re_popStyle|]. intros _.
  apply rv_if. { apply rv_bindE; [apply rv_gets; recq; reflexivity|]. intros []; [|step1]. apply rv_modify. recq. constructor; auto.
    apply Forall2_app; [assumption|]. constructor; [repeat split; constructor|constructor]. }
  apply rv_if.
  { intros c1 c2 Hc. unfold bind, gets.
    destruct Hc as [pc s1 s2 t1 t2 g gh b1 b2 b3 b4 b5 d1 d2 m1 m2 [vb ti de p1 p2 tr k1 k2 w h gr e1 e2 h1 h2 P1 P2 P3 P4] H2 H3 H4]. cbn [c_mask].
    destruct m1 as [m1|], m2 as [m2|]; try contradiction; [|cbn; split; [reflexivity|]; constructor; auto; constructor; auto]. cbn. split; [reflexivity|]. constructor; auto; [|exact I]. constructor; auto.
    destruct H4 as (ps & -> & Hp). cbn. unfold mput. constructor; [|apply filter_keys; [intros a b [H _]; exact H|exact P2]]. split; [reflexivity|]. exists ps. auto. }
  apply rv_if; [apply rv_modify; recq; constructor; auto|]. apply rv_if; [apply rv_modify; recq; constructor; auto|].
  apply rv_if. { apply rv_bindE; [apply re_flushDefs|]. intros _. apply rv_modify; recq; constructor; auto. }
  apply rv_if; [apply rv_modify; recq; constructor; auto|step1].
Qed.
Lemma re_chars s : self (charData s).
Proof.
  unfold charData. apply rv_get. intros c1 c2 [pc s1 s2 t1 t2 g gh b1 b2 b3 b4 b5 d1 d2 m1 m2 [vb ti de p1 p2 tr k1 k2 w h gr e1 e2 h1 h2 P1 P2 P3 P4] H2 H3 H4].
  cbn [c_inTitle c_inDesc c_svg sv_titles sv_descs]. apply rv_bindE; [|intros _]; (apply rv_if; [|step1]); (apply rv_bindE; [apply rv_lift|]; intros x; svg1).
Qed.
Lemma re_token fuel t t' : fewer_token drp t t' -> rv eq (stepToken fuel t) (stepToken fuel t').
Proof.
  intros [name l l' Hl|u]; cbn [stepToken].
  - apply rv_bindE; [apply re_pushStyle, Hl|]. intros _. apply re_start, Hl.
  - assert (Hr : forall l, fewer drp l l) by (induction l; constructor; auto). destruct u as [name l|name|s|]; cbn [stepToken]; [|apply re_end|apply re_chars|step1].
    apply rv_bindE; [apply re_pushStyle, Hr|]. intros _. apply re_start, Hr.
Qed.
Lemma re_tokens fuel toks toks' : Forall2 (fewer_token drp) toks toks' -> rv eq (mapM (stepToken fuel) toks) (mapM (stepToken fuel) toks').
Proof. induction 1; cbn [mapM]; [step1|]. apply rv_bindE; [apply re_token; assumption|]. intros _. assumption. Qed.
Lemma seen_less toks toks' : Forall2 (fewer_token drp) toks toks' -> seenTag toks = seenTag toks'.
Proof. induction 1 as [|t t' l l' H _ IH]; [reflexivity|]. unfold seenTag in *. cbn [existsb]. rewrite IH. destruct H; reflexivity. Qed.
Theorem parse_less fuel mode toks toks' tm : Forall2 (fewer_token drp) toks toks' ->
  alike Rsvg (parse fuel mode toks tm) (parse fuel mode toks' tm).
Proof.
  intros Ht. pose proof (re_tokens fuel _ _ Ht (cursor0 mode) (cursor0 mode)) as K.
  assert (H0 : Re (cursor0 mode) (cursor0 mode)).
  { constructor; try constructor; auto. exists (mkSl 0 0 0). auto. }
  specialize (K H0). unfold parse. rewrite <- (seen_less _ _ Ht).
  destruct (mapM (stepToken fuel) toks (cursor0 mode)) as [c1 [a|e| |]], (mapM (stepToken fuel) toks' (cursor0 mode)) as [c2 [b|e'| |]]; try contradiction.
  - destruct K as [_ K]. destruct K. destruct tm; [destruct (seenTag toks)|]; cbn; auto.
  - destruct K as [<- K]. destruct K. cbn. auto.
  - exact I.
  - exact I.
Qed.
End Erase.

Section Results.
Context {E : Env}.
Lemma rst_same (a b : style E) : Rst true a b -> same_style a b.
Proof. intros (sl & -> & _) p Hp. destruct p; try reflexivity. contradiction. Qed.
Lemma paths_same (l l' : list (svgPath E)) : Forall2 (Rpath true) l l' -> Forall2 same_path l l'.
Proof. induction 1 as [|a b l l' [H1 H2] _ IH]; constructor; auto. split; [exact H1|apply rst_same, H2]. Qed.
Lemma Rsvg_masks (s s' : svg E) : Rsvg true s s' -> same_but_masks s s'.
Proof.
  intros [vb ti de p1 p2 tr k1 k2 w h gr e1 e2 h1 h2 P1 P2 P3 P4]. repeat split; cbn; auto using paths_same.
  intros id. pose proof (mget_masks true id _ _ P2) as K. destruct (mget id k1), (mget id k2); auto.
  destruct K as (ps & -> & Hp). repeat split; cbn; auto using paths_same.
Qed.
Lemma rst_eq (a b : style E) : Rst false a b -> a = b.
Proof. intros (sl & -> & H). rewrite (H eq_refl). destruct a; reflexivity. Qed.
Lemma paths_eq (l l' : list (svgPath E)) : Forall2 (Rpath false) l l' -> l = l'.
Proof. induction 1 as [|[a a'] [b b'] l l' [H1 H2] _ IH]; [reflexivity|]. cbn in H1, H2. rewrite IH, H1, (rst_eq _ _ H2). reflexivity. Qed.
Lemma Rsvg_eq (s s' : svg E) : Rsvg false s s' -> same_svg s s'.
Proof.
  intros [vb ti de p1 p2 tr k1 k2 w h gr e1 e2 h1 h2 P1 P2 P3 P4]. repeat split; cbn; auto using paths_eq.
  induction P2 as [|[a a'] [b b'] l l' [H1 (ps & H3 & H2)] _ IH]; [reflexivity|]. cbn in H1, H2, H3. subst b'. rewrite IH, H1, <- (paths_eq _ _ H2). destruct a'; reflexivity.
Qed.
Lemma alike_mono (R R' : svg E -> svg E -> Prop) r r' : (forall s s', R s s' -> R' s s') -> alike R r r' -> alike R' r r'.
Proof. intros H. destruct r, r'; cbn; intuition. Qed.
Theorem masks_only fuel mode toks toks' tm : Forall2 (fewer_token mask_decl) toks toks' ->
  alike (E := E) same_but_masks (parse fuel mode toks tm) (parse fuel mode toks' tm).
Proof. intros H. apply (alike_mono _ _ _ _ Rsvg_masks), (parse_less true), H. Qed.
Theorem unknown_ignored fuel mode toks toks' tm : Forall2 (fewer_token unknown_decl) toks toks' ->
  alike (E := E) same_svg (parse fuel mode toks tm) (parse fuel mode toks' tm).
Proof. intros H. apply (alike_mono _ _ _ _ Rsvg_eq), (parse_less false), H. Qed.
End Results.
