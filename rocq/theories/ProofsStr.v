(** * ProofsStr: strings, slices and UTF-8 ranges *)
From Coq Require Import Lia.
From Verif Require Export PathCur.

Notation len := String.length.

Lemma len_app (a b : string) : len (a ++ b)%string = len a + len b.
Proof. induction a; simpl; auto. Qed.

Lemma sapp_nil_r (a : string) : (a ++ EmptyString)%string = a.
Proof. induction a; simpl; congruence. Qed.

Lemma sapp_assoc (a b c : string) : ((a ++ b) ++ c = a ++ (b ++ c))%string.
Proof. induction a; simpl; congruence. Qed.

Lemma substring_full (s : string) : String.substring 0 (len s) s = s.
Proof. induction s; simpl; congruence. Qed.

Lemma substring_0 (s : string) : String.substring 0 0 s = EmptyString.
Proof. destruct s; reflexivity. Qed.

Lemma substring_prefix (a b : string) n : n = len a -> String.substring 0 n (a ++ b) = a.
Proof. intros ->. induction a; simpl; [apply substring_0 | congruence]. Qed.

Lemma substring_suffix (a b : string) i n : i = len a -> n = len b ->
  String.substring i n (a ++ b) = b.
Proof. intros -> ->. induction a; simpl; [apply substring_full | assumption]. Qed.

Lemma substring_mid (a b c : string) i n : i = len a -> n = len b ->
  String.substring i n (a ++ b ++ c) = b.
Proof.
  intros -> ->. induction a as [|x a IH]; simpl; [|assumption].
  apply substring_prefix; reflexivity.
Qed.

Lemma slice_mid (a b c : string) i j : i = len a -> j = len a + len b ->
  slice (a ++ b ++ c)%string i j = Ret b.
Proof.
  intros -> ->. unfold slice. rewrite !len_app.
  destruct (Nat.leb_spec (len a) (len a + len b)); [|lia].
  destruct (Nat.leb_spec (len a + len b) (len a + (len b + len c))); [|lia].
  simpl. f_equal. apply substring_mid; lia.
Qed.

Lemma slice_tail (a b : string) i j : i = len a -> j = len a + len b ->
  slice (a ++ b)%string i j = Ret b.
Proof.
  intros Hi Hj. rewrite <- (sapp_nil_r b) at 1. apply slice_mid; auto.
Qed.

(** ** the runes of a string with their bytes *)
Fixpoint offs (i : nat) (l : list (N * string)) : list (nat * N) :=
  match l with
  | [] => []
  | (u, b) :: r => (i, u) :: offs (i + len b) r
  end.
Definition bytes (l : list (N * string)) : string := String.concat "" (map snd l).

Lemma bytes_cons u b l : bytes ((u, b) :: l) = (b ++ bytes l)%string.
Proof. unfold bytes; destruct l; simpl; [rewrite sapp_nil_r|]; reflexivity. Qed.

Lemma bytes_app l l' : bytes (l ++ l') = (bytes l ++ bytes l')%string.
Proof.
  induction l as [|[u b] l IH]; [reflexivity|].
  rewrite <- app_comm_cons, !bytes_cons, IH, sapp_assoc. reflexivity.
Qed.

Lemma decode_width s : s <> EmptyString -> 1 <= snd (decode_rune s) <= len s.
Proof.
  destruct s as [|a r]; [congruence|]. intros _. unfold decode_rune.
  repeat (match goal with
          | |- context [if ?b then _ else _] => destruct b
          | |- context [match ?x with EmptyString => _ | String _ _ => _ end] => destruct x
          end; simpl; try lia).
Qed.

Fixpoint dropn (k : nat) (s : string) : string :=
  match k, s with
  | S k, String _ r => dropn k r
  | _, _ => s
  end.

Lemma dropn_len k s : len (dropn k s) = len s - k.
Proof. revert s; induction k; intros [|c s]; simpl; auto with arith. Qed.

Lemma take_drop k s : (String.substring 0 k s ++ dropn k s)%string = s.
Proof.
  revert s; induction k; intros [|c s]; simpl; try reflexivity.
  rewrite IHk; reflexivity.
Qed.

Lemma substring_len0 k s : k <= len s -> len (String.substring 0 k s) = k.
Proof.
  revert s; induction k; intros [|c s] H; simpl in *; try lia; rewrite ?IHk; lia.
Qed.

Lemma range_skip k : forall i s, k <= len s -> range_from k i s = range_from 0 (i + k) (dropn k s).
Proof.
  induction k; intros i [|c s] H; simpl in *; try lia; rewrite ?Nat.add_0_r; auto.
  rewrite IHk by lia. f_equal. lia.
Qed.

Fixpoint runesF (n : nat) (s : string) : list (N * string) :=
  match n, s with
  | S n, String _ _ =>
    let (u, w) := decode_rune s in (u, String.substring 0 w s) :: runesF n (dropn w s)
  | _, _ => []
  end.
Definition runes (s : string) : list (N * string) := runesF (len s) s.

Lemma runesF_spec n : forall i s, len s <= n ->
  bytes (runesF n s) = s /\ range_from 0 i s = offs i (runesF n s)
  /\ Forall (fun p => snd p <> EmptyString) (runesF n s).
Proof.
  induction n; intros i s H.
  { destruct s; simpl in H; [|lia]. repeat split; constructor. }
  destruct s as [|c r]; [repeat split; constructor|].
  pose proof (decode_width (String c r)) as Hw.
  cbn [runesF].
  destruct (decode_rune (String c r)) as [u w] eqn:Hd. simpl in Hw.
  assert (Hw' : 1 <= w <= S (len r)) by (apply Hw; congruence). clear Hw.
  simpl in H. destruct w as [|w]; [lia|]. cbn [String.substring dropn].
  destruct (IHn (S (i + w)) (dropn w r)) as (Hb & Hr & Hf).
  { rewrite dropn_len; lia. }
  repeat split.
  - rewrite bytes_cons, Hb. cbn [String.append]. f_equal. apply take_drop.
  - cbn [range_from]. rewrite Hd. cbn [offs]. f_equal.
    rewrite range_skip by lia. cbn [len]. rewrite substring_len0 by lia.
    rewrite Nat.sub_succ, Nat.sub_0_r.
    replace (i + S w) with (S (i + w)) by lia. exact Hr.
  - constructor; [discriminate|assumption].
Qed.

Lemma bytes_runes s : bytes (runes s) = s.
Proof. apply (runesF_spec (len s) 0); auto. Qed.
Lemma range_runes s : range_str s = offs 0 (runes s).
Proof. apply (runesF_spec (len s) 0); auto. Qed.
Lemma runes_ne s : Forall (fun p => snd p <> EmptyString) (runes s).
Proof. apply (runesF_spec (len s) 0); auto. Qed.

(** for an ASCII string the runes are the bytes *)
Fixpoint ascii_runes (s : string) : list (N * string) :=
  match s with
  | EmptyString => []
  | String c r => (code c, String c EmptyString) :: ascii_runes r
  end.
Lemma bytes_ascii s : bytes (ascii_runes s) = s.
Proof. induction s; [reflexivity|]. cbn [ascii_runes]. rewrite bytes_cons, IHs. reflexivity. Qed.

Lemma runesF_ascii n : forall s, len s <= n -> all_chars is_ascii s = true ->
  runesF n s = ascii_runes s.
Proof.
  induction n; intros [|c s] H Ha; simpl in H; try lia; try reflexivity.
  simpl in Ha. apply andb_prop in Ha as [Hc Hs].
  cbn [runesF ascii_runes]. unfold decode_rune. unfold is_ascii in Hc. rewrite Hc.
  cbn [dropn String.substring]. rewrite substring_0, IHn by (auto; lia). reflexivity.
Qed.
Lemma runes_ascii s : all_chars is_ascii s = true -> runes s = ascii_runes s.
Proof. apply runesF_ascii; auto. Qed.

Lemma all_chars_app p a b : all_chars p (a ++ b) = all_chars p a && all_chars p b.
Proof. induction a; simpl; [reflexivity|]. rewrite IHa. apply andb_assoc. Qed.
Lemma ascii_runes_app a b : ascii_runes (a ++ b) = ascii_runes a ++ ascii_runes b.
Proof. induction a; simpl; congruence. Qed.

Lemma runes_cons_ascii c s : is_ascii c = true -> runes (String c s) = (code c, String c EmptyString) :: runes s.
Proof.
  intros H. unfold runes. cbn [len runesF]. unfold decode_rune. unfold is_ascii in H. rewrite H.
  cbn [dropn String.substring]. rewrite substring_0. reflexivity.
Qed.
Lemma runes_app_ascii a b : all_chars is_ascii a = true -> runes (a ++ b) = ascii_runes a ++ runes b.
Proof.
  induction a as [|c a IH]; intros H; [reflexivity|]. cbn [all_chars] in H. apply andb_prop in H as [Hc Ha].
  cbn [String.append ascii_runes app]. rewrite runes_cons_ascii by assumption. rewrite IH by assumption. reflexivity.
Qed.
