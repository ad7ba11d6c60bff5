(** * ProofsResult: what Parse returns (C19) *)
From Coq Require Import Lia.
From Verif Require Export ProofsDoc SpecSafe.
Local Open Scope go_scope.

Section Result.
Context {E : Env}.
Notation cursor := (cursor E).
Lemma seen_in toks : seenTag toks = true <-> exists name attrs, List.In (TStart name attrs) toks.
Proof.
  unfold seenTag. rewrite existsb_exists. split.
  - intros ([name attrs|name|s|] & Hi & H); try discriminate. eauto.
  - intros (name & attrs & Hi). eexists. split; [exact Hi|reflexivity].
Qed.
Lemma quiet_tokens fuel toks : (forall t, List.In t toks -> match t with TChar _ | TOther => True | _ => False end) ->
  forall c : cursor, c_inTitle c = false -> c_inDesc c = false -> mapM (stepToken fuel) toks c = (c, Ret tt).
Proof.
  induction toks as [|t toks IH]; intros H c H1 H2; [reflexivity|]. cbn [mapM]. unfold bind.
  assert (Hs : stepToken fuel t c = (c, Ret tt)).
  { pose proof (H t (or_introl eq_refl)) as Ht. destruct t as [| |s|]; try destruct Ht; [|reflexivity].
    cbn [stepToken]. unfold charData, bind, gets. rewrite H1, H2. reflexivity. }
  rewrite Hs. apply IH; auto. intros t' Ht'. apply H. now right.
Qed.
(** a forest without elements *)
Definition is_elem (n : node) : bool := match n with Elem _ _ _ => true | _ => false end.
Theorem parse_nil_iff fuel mode ns tm :
  (exists e, parse (E := E) fuel mode (flat_map tokens ns) tm = PNil e) <-> existsb is_elem ns = false /\ tm = TermEOF.
Proof.
  split.
  - intros (e & H). unfold parse in H. destruct (mapM (stepToken fuel) (flat_map tokens ns) (cursor0 mode)) as [c [a|x| |]]; try discriminate.
    destruct tm; [|discriminate]. destruct (seenTag (flat_map tokens ns)) eqn:Hs; [discriminate|]. split; [|reflexivity].
    rewrite <- Bool.not_true_iff_false. intros Hx. apply existsb_exists in Hx. destruct Hx as ([name attrs kids|s|] & Hi & Hx); try discriminate.
    enough (seenTag (flat_map tokens ns) = true) by congruence. apply seen_in. exists name, attrs. apply in_flat_map. eexists. split; [exact Hi|]. now left.
  - intros [H ->].
    assert (Hq : forall t, List.In t (flat_map tokens ns) -> match t with TChar _ | TOther => True | _ => False end).
    { intros t Ht. apply in_flat_map in Ht. destruct Ht as (n & Hn & Ht). assert (He : is_elem n = false).
      { rewrite <- Bool.not_true_iff_false. intros He. rewrite <- Bool.not_true_iff_false in H. apply H. apply existsb_exists. eauto. }
      destruct n as [| |]; try discriminate He; cbn in Ht; destruct Ht as [<-|[]]; exact I. }
    unfold parse. rewrite (quiet_tokens fuel _ Hq) by reflexivity.
    destruct (seenTag (flat_map tokens ns)) eqn:Hs; [|eauto]. apply seen_in in Hs. destruct Hs as (name & attrs & Hi). destruct (Hq _ Hi).
Qed.
Theorem parse_nil_streams fuel mode toks tm e : parse (E := E) fuel mode toks tm = PNil e ->
  tm = TermEOF /\ forall name attrs, ~ List.In (TStart name attrs) toks.
Proof.
  unfold parse. destruct (mapM (stepToken fuel) toks (cursor0 mode)) as [c [a|x| |]]; try discriminate. destruct tm; [|discriminate].
  destruct (seenTag toks) eqn:Hs; [discriminate|]. intros _. split; [reflexivity|]. intros name attrs Hi.
  enough (seenTag toks = true) by congruence. apply seen_in. eauto.
Qed.
(** an error of the decoder comes with what was read before it *)
Theorem decoder_error fuel mode toks x (s : svg E) log :
  parse fuel mode toks TermEOF = PSvg s None log -> parse fuel mode toks (TermErr x) = PSvg s (Some (ErrXML x)) log.
Proof.
  unfold parse. destruct (mapM (stepToken fuel) toks (cursor0 mode)) as [c [a|e| |]]; try discriminate.
  destruct (seenTag toks); [|discriminate]. intros H. injection H as <- <-. reflexivity.
Qed.
(** an error of the parser itself ends it: nothing after it matters *)
Theorem parser_error fuel mode toks (s : svg E) e log : parse fuel mode toks TermEOF = PSvg s (Some e) log ->
  forall more tm, parse fuel mode (toks ++ more) tm = PSvg s (Some e) log.
Proof.
  unfold parse. intros H more tm. rewrite mapM_app. unfold bind. destruct (mapM (stepToken fuel) toks (cursor0 mode)) as [c [a|x| |]]; try discriminate.
  - destruct (seenTag toks); discriminate.
  - injection H as <- <- <-. reflexivity.
Qed.
(** success means every token was accepted, and so was every beginning *)
Theorem success_prefix fuel mode toks more (s : svg E) log : parse fuel mode (toks ++ more) TermEOF = PSvg s None log ->
  (exists name attrs, List.In (TStart name attrs) toks) -> exists s' log', parse (E := E) fuel mode toks TermEOF = PSvg s' None log'.
Proof.
  intros H Hi. apply seen_in in Hi. unfold parse in *. rewrite mapM_app in H. unfold bind in H. rewrite Hi.
  destruct (mapM (stepToken fuel) toks (cursor0 mode)) as [c [a|x| |]]; try discriminate. eauto.
Qed.
End Result.
