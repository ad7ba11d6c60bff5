(** * Base: the part of the Go language and standard library the model uses.

    Nothing in this file models code of lafriks/go-svg itself; it models the
    library calls that code makes (package [strings], [strconv], [unicode/utf8]
    and the language's own slices, indexing, errors and panics).  A Go [string]
    is a sequence of bytes, i.e. a Coq [string] (a list of 8-bit [ascii]). *)
From Coq Require Export ZArith NArith Ascii String Bool List.
Export ListNotations.
Open Scope string_scope.
Open Scope list_scope.
Open Scope nat_scope.

(** ** Outcomes of a Go call

    [Ret]    normal return with a nil error
    [Err]    return with a non-nil error
    [Panic]  run-time panic (index / slice bounds out of range, nil dereference)
    [NoFuel] the fuel that bounds recursion in the model ran out: the model says
             nothing about the call.  A call that is [NoFuel] for every amount of
             fuel does not terminate in Go. *)
Inductive goerr :=
| ErrParamMismatch                (* parse_path.go:27 *)
| ErrCommandUnknown               (* parse_path.go:28 *)
| ErrZeroLengthID                 (* parse_path.go:29 *)
| ErrNumber (s : string)          (* an error of strconv.ParseFloat/Atoi/ParseUint on s *)
| ErrMsg (s : string)             (* errors.New(s) / fmt.Errorf *)
| ErrXML (s : string).            (* an error of the xml decoder *)

Inductive outcome (A : Type) :=
| Ret (a : A)
| Err (e : goerr)
| Panic
| NoFuel.
Arguments Ret {A} a. Arguments Err {A} e. Arguments Panic {A}. Arguments NoFuel {A}.

Definition obind {A B} (o : outcome A) (k : A -> outcome B) : outcome B :=
  match o with Ret a => k a | Err e => Err e | Panic => Panic | NoFuel => NoFuel end.

(** ** State with errors.  The state survives an error return (Go mutates through
    pointers before returning the error). *)
Definition M (S A : Type) := S -> S * outcome A.
Definition ret {S A} (a : A) : M S A := fun s => (s, Ret a).
Definition bind {S A B} (m : M S A) (k : A -> M S B) : M S B := fun s =>
  match m s with
  | (s', Ret a) => k a s'
  | (s', Err e) => (s', Err e)
  | (s', Panic) => (s', Panic)
  | (s', NoFuel) => (s', NoFuel)
  end.
Definition raise {S A} (e : goerr) : M S A := fun s => (s, Err e).
Definition gopanic {S A} : M S A := fun s => (s, Panic).
Definition nofuel {S A} : M S A := fun s => (s, NoFuel).
Definition lift {S A} (o : outcome A) : M S A := fun s => (s, o).
Definition gets {S A} (f : S -> A) : M S A := fun s => (s, Ret (f s)).
Definition modify {S} (f : S -> S) : M S unit := fun s => (f s, Ret tt).
(** run [m] and hand its error (if any) to the caller as a value: [err = m()] *)
Definition attempt {S} (m : M S unit) : M S (option goerr) := fun s =>
  match m s with
  | (s', Ret _) => (s', Ret None)
  | (s', Err e) => (s', Ret (Some e))
  | (s', Panic) => (s', Panic)
  | (s', NoFuel) => (s', NoFuel)
  end.
(** Go [defer f()]: [f] runs when [m] returns, with or without error *)
Definition deferred {S A} (f : S -> S) (m : M S A) : M S A := fun s =>
  let (s', o) := m s in (f s', o).

Declare Scope go_scope.
Delimit Scope go_scope with go.
Notation "x <- m ;; k" := (bind m (fun x => k))
  (at level 60, m at next level, right associativity) : go_scope.
Notation "m ;; k" := (bind m (fun _ => k))
  (at level 60, right associativity) : go_scope.
Notation "x <~ o ;; k" := (obind o (fun x => k))
  (at level 60, o at next level, right associativity) : go_scope.

Notation "' p <- m ;; k" := (bind m (fun x => match x with p => k end))
  (at level 60, p pattern, m at next level, right associativity) : go_scope.
Notation "' p <~ o ;; k" := (obind o (fun x => match x with p => k end))
  (at level 60, p pattern, o at next level, right associativity) : go_scope.

(** ** Indexing, slicing (with Go's bounds checks) *)
Definition idx {A} (l : list A) (i : nat) : outcome A :=
  match nth_error l i with Some a => Ret a | None => Panic end.

Fixpoint upd {A} (l : list A) (i : nat) (a : A) : outcome (list A) :=
  match l, i with
  | [], _ => Panic
  | _ :: t, O => Ret (a :: t)
  | h :: t, S j => obind (upd t j a) (fun t' => Ret (h :: t'))
  end.

(** [s[a:b]] *)
Definition slice (s : string) (a b : nat) : outcome string :=
  if (a <=? b) && (b <=? String.length s) then Ret (String.substring a (b - a) s) else Panic.

(** [s[i]] *)
Definition byteat (s : string) (i : nat) : outcome ascii :=
  match String.get i s with Some c => Ret c | None => Panic end.

(** [for i := a; i < bound; i += step { body(i) }], with an explicit iteration budget *)
Fixpoint loop {S} (fuel i step bound : nat) (body : nat -> M S unit) : M S unit :=
  if i <? bound then
    match fuel with
    | O => nofuel
    | Datatypes.S f => (body i ;; loop f (i + step) step bound body)%go
    end
  else ret tt.

Fixpoint mapM {S A} (f : A -> M S unit) (l : list A) : M S unit :=
  match l with
  | [] => ret tt
  | a :: r => (f a ;; mapM f r)%go
  end.

(** ** Bytes and characters *)
Definition code (c : ascii) : N := N_of_ascii c.
Definition byte (n : N) : ascii := ascii_of_N n.

Definition is_digit (c : ascii) : bool := (48 <=? code c)%N && (code c <=? 57)%N.
Definition is_alpha (c : ascii) : bool :=
  ((65 <=? code c)%N && (code c <=? 90)%N) || ((97 <=? code c)%N && (code c <=? 122)%N).
Definition is_ascii (c : ascii) : bool := (code c <? 128)%N.

Fixpoint all_chars (p : ascii -> bool) (s : string) : bool :=
  match s with EmptyString => true | String c r => p c && all_chars p r end.

Fixpoint map_chars (f : ascii -> ascii) (s : string) : string :=
  match s with EmptyString => EmptyString | String c r => String (f c) (map_chars f r) end.

Definition lower_ascii (c : ascii) : ascii :=
  if (65 <=? code c)%N && (code c <=? 90)%N then byte (code c + 32) else c.

(** ** utf8.DecodeRuneInString: (rune, width); (0xFFFD, 1) on an invalid sequence *)
Definition rune_error : N := 65533.
Definition cont (c : ascii) : bool := (128 <=? code c)%N && (code c <=? 191)%N.
Definition inr (lo hi : N) (c : ascii) : bool := (lo <=? code c)%N && (code c <=? hi)%N.

Definition decode_rune (s : string) : N * nat :=
  match s with
  | EmptyString => (rune_error, 0)
  | String a r =>
    let p0 := code a in
    if (p0 <? 128)%N then (p0, 1)
    else if inr 194 223 a then
      match r with
      | String b _ => if cont b then (((p0 - 192) * 64 + (code b - 128))%N, 2) else (rune_error, 1)
      | _ => (rune_error, 1)
      end
    else if inr 224 239 a then
      match r with
      | String b (String d _) =>
        let lo := if (p0 =? 224)%N then 160%N else 128%N in
        let hi := if (p0 =? 237)%N then 159%N else 191%N in
        if inr lo hi b && cont d
        then (((p0 - 224) * 4096 + (code b - 128) * 64 + (code d - 128))%N, 3)
        else (rune_error, 1)
      | _ => (rune_error, 1)
      end
    else if inr 240 244 a then
      match r with
      | String b (String d (String e _)) =>
        let lo := if (p0 =? 240)%N then 144%N else 128%N in
        let hi := if (p0 =? 244)%N then 143%N else 191%N in
        if inr lo hi b && cont d && cont e
        then (((p0 - 240) * 262144 + (code b - 128) * 4096 + (code d - 128) * 64 + (code e - 128))%N, 4)
        else (rune_error, 1)
      | _ => (rune_error, 1)
      end
    else (rune_error, 1)
  end.

(** [for i, r := range s]: the (byte offset, rune) pairs, in order *)
Fixpoint range_from (skip i : nat) (s : string) : list (nat * N) :=
  match s with
  | EmptyString => []
  | String _ r =>
    match skip with
    | S k => range_from k (S i) r
    | O => let (u, w) := decode_rune s in (i, u) :: range_from (w - 1) (S i) r
    end
  end.
Definition range_str (s : string) : list (nat * N) := range_from 0 0 s.

(** ** package strings *)
Definition hasPrefix (s p : string) : bool := String.prefix p s.
Definition hasSuffix (s p : string) : bool :=
  (String.length p <=? String.length s) &&
  String.eqb (String.substring (String.length s - String.length p) (String.length p) s) p.
Definition trimPrefix (s p : string) : string :=
  if hasPrefix s p then String.substring (String.length p) (String.length s - String.length p) s else s.
Definition trimSuffix (s p : string) : string :=
  if hasSuffix s p then String.substring 0 (String.length s - String.length p) s else s.

(** strings.Split(s, sep) for a one-byte separator: never empty *)
Fixpoint split1 (sep : ascii) (s : string) : list string :=
  match s with
  | EmptyString => [EmptyString]
  | String c r =>
    if Ascii.eqb c sep then EmptyString :: split1 sep r
    else match split1 sep r with
         | [] => [String c EmptyString]       (* cannot happen: split1 is never [] *)
         | h :: t => String c h :: t
         end
  end.

(** strings.Cut(s, sep) for a one-byte separator *)
Fixpoint cut1 (sep : ascii) (s : string) : option (string * string) :=
  match s with
  | EmptyString => None
  | String c r =>
    if Ascii.eqb c sep then Some (EmptyString, r)
    else match cut1 sep r with Some (a, b) => Some (String c a, b) | None => None end
  end.

(** strings.FieldsFunc for a predicate on one-byte characters *)
Fixpoint fields_acc (p : ascii -> bool) (cur s : string) : list string :=
  match s with
  | EmptyString => if (String.length cur =? 0) then [] else [cur]
  | String c r =>
    if p c then (if (String.length cur =? 0) then fields_acc p EmptyString r
                 else cur :: fields_acc p EmptyString r)
    else fields_acc p (cur ++ String c EmptyString)%string r
  end.
Definition fieldsFunc (p : ascii -> bool) (s : string) : list string := fields_acc p EmptyString s.

(** Width of the white space rune (unicode.IsSpace) at the front of [s]; 0 if none.
    U+0009-U+000D, U+0020, U+0085, U+00A0, U+1680, U+2000-U+200A, U+2028, U+2029,
    U+202F, U+205F, U+3000 *)
Definition is_space_rune (r : N) : bool :=
  ((9 <=? r) && (r <=? 13) || (r =? 32) || (r =? 133) || (r =? 160) || (r =? 5760)
   || (8192 <=? r) && (r <=? 8202) || (r =? 8232) || (r =? 8233) || (r =? 8239)
   || (r =? 8287) || (r =? 12288))%N.
Definition space_width (s : string) : nat :=
  let (r, w) := decode_rune s in if is_space_rune r then w else 0.

Fixpoint trim_left_from (skip : nat) (s : string) : string :=
  match s with
  | EmptyString => EmptyString
  | String _ r =>
    match skip with
    | S k => trim_left_from k r
    | O => match space_width s with O => s | S k => trim_left_from k r end
    end
  end.
Definition trim_left (s : string) : string := trim_left_from 0 s.

Fixpoint rev_str_acc (s acc : string) : string :=
  match s with EmptyString => acc | String c r => rev_str_acc r (String c acc) end.
Definition rev_str (s : string) : string := rev_str_acc s EmptyString.

(** Width of the white space rune at the end of the string whose reversal is [s].
    UTF-8 is self-synchronising, so utf8.DecodeLastRuneInString finds a white space
    rune at the end exactly when the last 1, 2 or 3 bytes are its encoding. *)
Definition space_width_rev (s : string) : nat :=
  match s with
  | EmptyString => 0
  | String a r =>
    if (code a <? 128)%N then (if is_space_rune (code a) then 1 else 0)
    else match r with
    | EmptyString => 0
    | String b r2 =>
      if (space_width (String b (String a EmptyString)) =? 2) then 2
      else match r2 with
      | EmptyString => 0
      | String d _ =>
        if (space_width (String d (String b (String a EmptyString))) =? 3) then 3 else 0
      end
    end
  end.
Fixpoint trim_rev_from (skip : nat) (s : string) : string :=
  match s with
  | EmptyString => EmptyString
  | String _ r =>
    match skip with
    | S k => trim_rev_from k r
    | O => match space_width_rev s with O => s | S k => trim_rev_from k r end
    end
  end.
Definition trim_right (s : string) : string := rev_str (trim_rev_from 0 (rev_str s)).
(** strings.TrimSpace *)
Definition trimSpace (s : string) : string := trim_right (trim_left s).

Definition joinStr (sep : string) (l : list string) : string := String.concat sep l.

(** ** package strconv: Atoi (base 10, int64) and ParseUint(s, 16, 8) *)
Fixpoint dec_digits (s : string) (acc : Z) : option Z :=
  match s with
  | EmptyString => Some acc
  | String c r => if is_digit c then dec_digits r (acc * 10 + (Z.of_N (code c) - 48))%Z else None
  end.
Definition int64_max : Z := (2^63 - 1)%Z.
Definition int64_min : Z := (- 2^63)%Z.
Definition atoi (s : string) : outcome Z :=
  let go neg body :=
    match body with
    | EmptyString => Err (ErrNumber s)
    | _ => match dec_digits body 0%Z with
           | None => Err (ErrNumber s)
           | Some n =>
             let v := if (neg : bool) then (- n)%Z else n in
             if ((int64_min <=? v) && (v <=? int64_max))%Z then Ret v else Err (ErrNumber s)
           end
    end in
  match s with
  | String "-"%char r => go true r
  | String "+"%char r => go false r
  | _ => go false s
  end.

Definition hex_digit (c : ascii) : option Z :=
  let n := Z.of_N (code c) in
  if ((48 <=? n) && (n <=? 57))%Z then Some (n - 48)%Z
  else if ((97 <=? n) && (n <=? 102))%Z then Some (n - 87)%Z
  else if ((65 <=? n) && (n <=? 70))%Z then Some (n - 55)%Z
  else None.
Fixpoint hex_digits (s : string) (acc : Z) : option Z :=
  match s with
  | EmptyString => Some acc
  | String c r => match hex_digit c with Some d => hex_digits r (acc * 16 + d)%Z | None => None end
  end.
Definition parseUint16_8 (s : string) : outcome Z :=
  match s with
  | EmptyString => Err (ErrNumber s)
  | _ => match hex_digits s 0%Z with
         | Some n => if (n <=? 255)%Z then Ret n else Err (ErrNumber s)
         | None => Err (ErrNumber s)
         end
  end.

(** ** fixed-width integers *)
Definition wrap (bits : Z) (z : Z) : Z :=
  let m := (2 ^ bits)%Z in
  let r := (z mod m)%Z in if (r <? m / 2)%Z then r else (r - m)%Z.
Definition wrap32 := wrap 32.
Definition wrap64 := wrap 64.
Definition uint8 (z : Z) : Z := (z mod 256)%Z.

(** ** maps with string keys: association lists without duplicate keys *)
Definition smap (V : Type) := list (string * V).
Fixpoint mget {V} (k : string) (m : smap V) : option V :=
  match m with
  | [] => None
  | (k', v) :: r => if String.eqb k k' then Some v else mget k r
  end.
Definition mput {V} (k : string) (v : V) (m : smap V) : smap V :=
  (k, v) :: filter (fun kv => negb (String.eqb k (fst kv))) m.
