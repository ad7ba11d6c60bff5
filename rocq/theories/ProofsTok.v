(** * ProofsTok: the tokenizers of parse_path.go as functions on runes

    Index arithmetic and slices are eliminated once and for all: getPoints pushes the
    numbers of a list of pieces, compilePath runs addSeg on a list of segments. *)
From Coq Require Import Lia.
From Verif Require Export ProofsStr.

Section Tok.
Context {E : Env}.
Notation F := (F E).
Notation pcur := (pcur E).
Notation P := (@P E).
Local Open Scope go_scope.

Definition meq {S A} (m m' : M S A) : Prop := forall s, m s = m' s.
Infix "==" := meq (at level 70).

Lemma bind_ext {S A B} (m m' : M S A) (k k' : A -> M S B) :
  m == m' -> (forall a, k a == k' a) -> (bind m k) == (bind m' k').
Proof. intros H K s. unfold bind. rewrite H. destruct (m' s) as [s' []]; auto. apply K. Qed.
Lemma bind_assoc {S A B D} (m : M S A) (k : A -> M S B) (h : B -> M S D) :
  bind (bind m k) h == bind m (fun a => bind (k a) h).
Proof. intros s. unfold bind. destruct (m s) as [s' []]; auto. Qed.
Lemma bind_ret_l {S A B} (a : A) (k : A -> M S B) : bind (ret a) k == k a.
Proof. intros s; reflexivity. Qed.
Lemma bind_lift {S A B} (a : A) (k : A -> M S B) : bind (lift (Ret a)) k == k a.
Proof. intros s; reflexivity. Qed.
Lemma mapM_app {S A} (f : A -> M S unit) l l' : mapM f (l ++ l') == (mapM f l ;; mapM f l').
Proof.
  intros s; revert s; induction l; intros s; simpl; [reflexivity|].
  unfold bind in *. destruct (f a s) as [s' []]; auto.
Qed.

(** ** readFloat *)
Fixpoint rf (cur : string) (first : bool) (l : list (N * string)) : list string :=
  match l with
  | [] => [cur]
  | (n, b) :: r =>
    if (n =? 46)%N then
      if first then rf (cur ++ b)%string false r else cur :: rf b false r
    else rf (cur ++ b)%string first r
  end.
Definition rfPieces (s : string) : list string := rf EmptyString true (runes s).

Lemma readFloat_loop_rf l : forall pre cur first (k : unit -> P unit) (c : pcur) s,
  s = (pre ++ cur ++ bytes l)%string ->
  (bind (readFloat_loop s (offs (len pre + len cur) l) (len pre) first)
    (fun last => s <- lift (slice s last (len s)) ;; bind (pushFloat s) k)) c
  = (bind (mapM pushFloat (rf cur first l)) k) c.
Proof.
  induction l as [|[n b] l IH]; intros pre cur first k c s ->; cbn [offs readFloat_loop rf].
  - rewrite bind_ret_l.
    unfold bytes; cbn [map String.concat]. rewrite sapp_nil_r.
    rewrite (slice_tail pre cur) by (rewrite ?len_app; lia). rewrite bind_lift.
    cbn [mapM]. rewrite bind_assoc. apply bind_ext; [intro; reflexivity|].
    intros []. intro. symmetry. apply bind_ret_l.
  - rewrite bytes_cons.
    assert (H0 : (pre ++ cur ++ b ++ bytes l = pre ++ (cur ++ b) ++ bytes l)%string)
      by (rewrite !sapp_assoc; reflexivity).
    destruct (n =? 46)%N; [destruct first|].
    + rewrite <- (IH pre (cur ++ b)%string false k c _ H0).
      rewrite (len_app cur b), Nat.add_assoc. reflexivity.
    + rewrite bind_assoc.
      rewrite (slice_mid pre cur) by lia. rewrite bind_lift.
      cbn [mapM]. rewrite !bind_assoc. apply bind_ext; [intro; reflexivity|]. intros [] c'.
      rewrite <- (IH (pre ++ cur)%string b false k c' (pre ++ cur ++ b ++ bytes l)%string)
        by (rewrite !sapp_assoc; reflexivity).
      rewrite (len_app pre cur). reflexivity.
    + rewrite <- (IH pre (cur ++ b)%string first k c _ H0).
      rewrite (len_app cur b), Nat.add_assoc. reflexivity.
Qed.

Lemma readFloat_pieces s : readFloat (E := E) s == mapM pushFloat (rfPieces s).
Proof.
  intros c. unfold readFloat. rewrite range_runes.
  pose proof (readFloat_loop_rf (runes s) EmptyString EmptyString true (fun _ => ret tt) c s) as H.
  cbn [len Nat.add String.append] in H. rewrite bytes_runes in H. specialize (H eq_refl).
  unfold rfPieces.
  transitivity ((mapM pushFloat (rf "" true (runes s)) ;; ret tt) c).
  - rewrite <- H. apply bind_ext; [intro; reflexivity|]. intros a.
    apply bind_ext; [intro; reflexivity|]. intros a0 c0.
    unfold bind. destruct (pushFloat a0 c0) as [? [[]| | |]]; reflexivity.
  - unfold bind. destruct (mapM _ _ c) as [? [[]| | |]]; reflexivity.
Qed.

(** ** getPoints *)
Fixpoint gp (cur : option string) (lr : N) (l : list (N * string)) : list string :=
  match l with
  | [] => match cur with Some s => rfPieces s | None => [] end
  | (r, b) :: rest =>
    if negb (inNumber (E := E) lr r) then
      (match cur with Some s => rfPieces s | None => [] end) ++
      gp (if (r =? 45)%N then Some b else None) r rest
    else gp (match cur with None => Some b | Some s => Some (s ++ b)%string end) r rest
  end.
Definition numPieces (s : string) : list string := gp None 32 (runes s).

Definition gpTail (s : string) : option nat -> P unit := fun lastIndex =>
  match lastIndex with
  | Some li => if li =? len s then ret tt
               else s <- lift (slice s li (len s)) ;; readFloat s
  | None => ret tt
  end.

Lemma getPoints_loop_gp l : Forall (fun p => snd p <> EmptyString) l ->
  forall pre cur lr (c : pcur) s,
  s = (pre ++ match cur with Some t => t | None => "" end ++ bytes l)%string ->
  (forall t, cur = Some t -> t <> EmptyString) ->
  (bind (getPoints_loop s (offs (len pre + match cur with Some t => len t | None => 0 end) l)
          (match cur with Some _ => Some (len pre) | None => None end) lr)
    (gpTail s)) c
  = mapM pushFloat (gp cur lr l) c.
Proof.
  induction 1 as [|[r b] l Hb Hl IH]; intros pre cur lr c s -> Hc; cbn [offs getPoints_loop gp].
  - rewrite bind_ret_l. unfold bytes; cbn [map String.concat]. rewrite sapp_nil_r.
    unfold gpTail. destruct cur as [t|]; [|reflexivity].
    specialize (Hc t eq_refl). rewrite len_app.
    destruct (Nat.eqb_spec (len pre) (len pre + len t)) as [H|H].
    { destruct t; [congruence|simpl in H; lia]. }
    rewrite (slice_tail pre t) by lia. rewrite bind_lift. apply readFloat_pieces.
  - rewrite bytes_cons. simpl in Hb.
    destruct (negb (inNumber lr r)) eqn:Hn.
    + rewrite bind_assoc, mapM_app.
      apply bind_ext.
      { destruct cur as [t|]; [|intro; reflexivity]. intro c'.
        rewrite (slice_mid pre t) by lia. rewrite bind_lift. apply readFloat_pieces. }
      intros [] c'.
      destruct (r =? 45)%N.
      * erewrite <- (IH (pre ++ match cur with Some t => t | None => "" end)%string (Some b) r c');
          [| | intros ? [= <-]; assumption]; [|reflexivity].
        rewrite !sapp_assoc. rewrite (len_app pre).
        destruct cur; cbn [len]; rewrite ?Nat.add_0_r; reflexivity.
      * erewrite <- (IH (pre ++ match cur with Some t => t | None => "" end ++ b)%string None r c');
          [|reflexivity|congruence].
        rewrite !sapp_assoc. rewrite !len_app. cbn [String.append].
        f_equal. f_equal. f_equal. destruct cur; cbn [len]; lia.
    + destruct cur as [t|].
      * erewrite <- (IH pre (Some (t ++ b)%string) r c);
          [| reflexivity | intros ? [= <-]; destruct t; simpl; congruence].
        rewrite !sapp_assoc, (len_app t b), Nat.add_assoc. reflexivity.
      * erewrite <- (IH pre (Some b) r c); [|reflexivity|intros ? [= <-]; assumption].
        cbn [String.append]. rewrite Nat.add_0_r. reflexivity.
Qed.

Lemma getPoints_pieces s (c : pcur) :
  getPoints (E := E) s c = mapM pushFloat (numPieces s) (set_points [] c).
Proof.
  unfold getPoints, bind at 1, modify. rewrite range_runes.
  pose proof (getPoints_loop_gp (runes s) (runes_ne s) EmptyString None 32 (set_points [] c) s) as H.
  cbn [len Nat.add String.append] in H. rewrite bytes_runes in H.
  unfold numPieces. rewrite <- H; [reflexivity|reflexivity|congruence].
Qed.

(** the numbers read from the pieces: those before the first unreadable one *)
Fixpoint pushes (l : list string) : list F * outcome unit :=
  match l with
  | [] => ([], Ret tt)
  | s :: r => match parseBasicFloat (E := E) s with
              | Ret f => let (fs, o) := pushes r in (f :: fs, o)
              | Err e => ([], Err e)
              | Panic => ([], Panic)
              | NoFuel => ([], NoFuel)
              end
  end.
Lemma mapM_pushes l : forall c : pcur,
  mapM pushFloat l c = (set_points (pc_points c ++ fst (pushes l)) c, snd (pushes l)).
Proof.
  induction l as [|s l IH]; intros c; cbn [mapM pushes].
  - unfold ret; cbn. rewrite app_nil_r. destruct c; reflexivity.
  - unfold pushFloat, bind, lift, modify. destruct (parseBasicFloat s); cbn;
      try (rewrite app_nil_r; destruct c; reflexivity).
    rewrite IH. destruct (pushes l) as [fs o]. cbn. rewrite <- app_assoc. reflexivity.
Qed.

Definition numbers (s : string) : list F * outcome unit := pushes (numPieces s).

Theorem getPoints_numbers s (c : pcur) :
  getPoints s c = (set_points (fst (numbers s)) c, snd (numbers s)).
Proof. rewrite getPoints_pieces, mapM_pushes. reflexivity. Qed.

Lemma parseBasicFloat_total s : (exists f, parseBasicFloat (E := E) s = Ret f)
  \/ (exists e, parseBasicFloat (E := E) s = Err e).
Proof.
  unfold parseBasicFloat, parseUnit.
  destruct (findUnit s) as [u v]. destruct (parseFloat E v); cbn; eauto.
Qed.
Lemma pushes_total l : (snd (pushes l) = Ret tt /\ length (fst (pushes l)) = length l)
  \/ (exists e, snd (pushes l) = Err e).
Proof.
  induction l as [|s l IH]; cbn; [auto|].
  destruct (parseBasicFloat_total s) as [[f ->]|[e ->]]; [|cbn; eauto].
  destruct (pushes l) as [fs o]; cbn in *. destruct IH as [[-> ->]|[e ->]]; eauto.
Qed.
Lemma numbers_total s : snd (numbers s) = Ret tt \/ exists e, snd (numbers s) = Err e.
Proof. destruct (pushes_total (numPieces s)) as [[H _]|H]; auto. Qed.

(** ** compilePath *)
Fixpoint sg (cur : option string) (l : list (N * string)) : list string :=
  match l with
  | [] => match cur with Some s => [s] | None => [] end
  | (v, b) :: r =>
    if isLetter E v && negb (v =? 101)%N then
      (match cur with Some s => [s] | None => [] end) ++ sg (Some b) r
    else sg (match cur with Some s => Some (s ++ b)%string | None => None end) r
  end.
Definition segments (s : string) : list string := sg None (runes s).

Lemma compile_loop_sg l : Forall (fun p => snd p <> EmptyString) l ->
  forall pre cur (c : pcur) s,
  s = (pre ++ match cur with Some t => t | None => "" end ++ bytes l)%string ->
  (bind (compile_loop s (offs (len pre + match cur with Some t => len t | None => 0 end) l)
          (match cur with Some _ => Some (len pre) | None => None end))
    (fun lastIndex => match lastIndex with
     | Some li => t <- lift (slice s li (len s)) ;; addSeg t
     | None => ret tt end)) c
  = mapM addSeg (sg cur l) c.
Proof.
  induction 1 as [|[r b] l Hb Hl IH]; intros pre cur c s ->; cbn [offs compile_loop sg].
  - rewrite bind_ret_l. unfold bytes; cbn [map String.concat]. rewrite sapp_nil_r.
    destruct cur as [t|]; [|reflexivity]. rewrite len_app.
    rewrite (slice_tail pre t) by lia. rewrite bind_lift.
    cbn [mapM]. unfold bind. destruct (addSeg t c) as [? [[]| | |]]; reflexivity.
  - rewrite bytes_cons. simpl in Hb.
    destruct (isLetter E r && negb (r =? 101)%N).
    + rewrite bind_assoc, mapM_app.
      apply bind_ext.
      { destruct cur as [t|]; [|intro; reflexivity]. intro c'.
        rewrite (slice_mid pre t) by lia. rewrite bind_lift.
        cbn [mapM]. unfold bind. destruct (addSeg t c') as [? [[]| | |]]; reflexivity. }
      intros [] c'.
      erewrite <- (IH (pre ++ match cur with Some t => t | None => "" end)%string (Some b) c');
        [|reflexivity].
      rewrite !sapp_assoc. 
      destruct cur; cbn [len]; rewrite !len_app, ?Nat.add_0_r, ?Nat.add_assoc; reflexivity.
    + destruct cur as [t|].
      * erewrite <- (IH pre (Some (t ++ b)%string) c); [|reflexivity].
        rewrite !sapp_assoc, (len_app t b), Nat.add_assoc. reflexivity.
      * erewrite <- (IH (pre ++ b)%string None c); [|reflexivity].
        cbn [String.append]. rewrite !sapp_assoc, !len_app, !Nat.add_0_r. reflexivity.
Qed.

Theorem compilePath_segments s (c : pcur) :
  compilePath (E := E) s c = (pinit ;; mapM addSeg (segments s)) c.
Proof.
  unfold compilePath. rewrite range_runes. apply bind_ext; [intro; reflexivity|]. intros [] c'.
  pose proof (compile_loop_sg (runes s) (runes_ne s) EmptyString None c' s) as H.
  cbn [len Nat.add String.append] in H. rewrite bytes_runes in H. rewrite H; reflexivity.
Qed.

Lemma sg_ne l : Forall (fun p => snd p <> EmptyString) l -> forall cur,
  (forall t, cur = Some t -> t <> EmptyString) -> Forall (fun s => s <> EmptyString) (sg cur l).
Proof.
  induction 1 as [|[r b] l Hb Hl IH]; intros cur Hc; cbn [sg].
  - destruct cur; constructor; auto.
  - simpl in Hb. destruct (isLetter E r && negb (r =? 101)%N).
    + apply Forall_app; split; [destruct cur; constructor; auto|].
      apply IH. intros ? [= <-]; assumption.
    + apply IH. destruct cur as [t|]; [|congruence].
      intros ? [= <-]. destruct t; simpl; [assumption|congruence].
Qed.
Lemma segments_ne s : Forall (fun s => s <> EmptyString) (segments s).
Proof. apply sg_ne; [apply runes_ne|congruence]. Qed.

(** addSeg on a non-empty segment *)
Theorem addSeg_eq k rest (c : pcur) :
  addSeg (String k rest) c =
  match snd (numbers rest) with
  | Ret _ => (segSwitch k (length (fst (numbers rest))) ;; modify (set_lastKey k))
               (set_points (fst (numbers rest)) c)
  | Err e => (set_points (fst (numbers rest)) c, Err e)
  | Panic => (set_points (fst (numbers rest)) c, Panic)
  | NoFuel => (set_points (fst (numbers rest)) c, NoFuel)
  end.
Proof.
  unfold addSeg.
  rewrite (slice_tail (String k EmptyString) rest) by reflexivity. rewrite bind_lift.
  unfold bind at 1. rewrite getPoints_numbers.
  destruct (snd (numbers rest)); reflexivity.
Qed.
End Tok.
Infix "==" := meq (at level 70).
