(** * SpecRunes: texts as characters, and the numbers in them (C69)

    A text is a list of Unicode scalar values; its bytes are their UTF-8 encodings. *)
From Verif Require Export SpecMistake.
Local Open Scope N_scope.

(** ** UTF-8 *)
Definition scalar (r : N) : Prop := r < 55296 \/ 57344 <= r < 1114112.
Definition encode (r : N) : string :=
  if r <? 128 then String (ascii_of_N r) ""
  else if r <? 2048 then String (ascii_of_N (192 + r / 64)) (String (ascii_of_N (128 + r mod 64)) "")
  else if r <? 65536 then
    String (ascii_of_N (224 + r / 4096)) (String (ascii_of_N (128 + r / 64 mod 64)) (String (ascii_of_N (128 + r mod 64)) ""))
  else String (ascii_of_N (240 + r / 262144)) (String (ascii_of_N (128 + r / 4096 mod 64))
         (String (ascii_of_N (128 + r / 64 mod 64)) (String (ascii_of_N (128 + r mod 64)) ""))).
Fixpoint utf8 (cs : list N) : string :=
  match cs with [] => "" | r :: cs => (encode r ++ utf8 cs)%string end.

(** ** The numbers of a list *)
Definition decimal_digit (r : N) : bool := (48 <=? r) && (r <=? 57).
(** a digit, a dot, an e, and a minus sign after an e belong to the number before them *)
Definition belongs (prev r : N) : bool :=
  decimal_digit r || (r =? 46) || (r =? 101) || ((r =? 45) && (prev =? 101)).
(** [w] is the word read so far: everything that does not belong to it ends it, and another minus sign begins the next *)
Fixpoint pieces_of (prev : N) (w cs : list N) : list (list N) :=
  match cs with
  | [] => [w]
  | r :: cs => if belongs prev r then pieces_of r (w ++ [r]) cs
               else w :: pieces_of r (if r =? 45 then [r] else []) cs
  end.
(** a second dot begins another number *)
Fixpoint undotted (dotted : bool) (w cs : list N) : list (list N) :=
  match cs with
  | [] => [w]
  | r :: cs => if (r =? 46) && dotted then w :: undotted true [r] cs
               else undotted (dotted || (r =? 46)) (w ++ [r]) cs
  end.
Definition nonempty_word (w : list N) : bool := match w with [] => false | _ => true end.
(** the words of a list that have to be numbers *)
Definition number_words (cs : list N) : list string :=
  map utf8 (flat_map (undotted false []) (List.filter nonempty_word (pieces_of 32 [] cs))).

Section Words.
Context (E : Env).
(** characters: Unicode scalar values; those that Unicode counts among the numbers are the ten digits *)
Definition plain_text (cs : list N) : Prop := Forall (fun r => scalar r /\ isNumber E r = decimal_digit r) cs.
(** a number in user units *)
Definition word_value (w : string) : option (F E) := option_map (fun x => fmul E x (fnum E 1)) (parseFloat E w).
(** a text with a word that is no number *)
Definition wrong_list (cs : list N) : Prop :=
  plain_text cs /\ exists w, List.In w (number_words cs) /\ parseFloat E w = None.
(** where lists of numbers are: the viewBox, the points of a polyline or polygon, the coordinates of a path command *)
Definition command_letter (r : N) : Prop := (65 <= r <= 90 \/ 97 <= r <= 122) /\ r <> 101.
Definition no_command (r : N) : Prop := r = 101 \/ isLetter E r = false.
Inductive wrong_numbers : string -> list attr -> Prop :=
| wn_viewBox attrs cs : List.In (mkAttr "viewBox" (utf8 cs)) attrs -> wrong_list cs -> wrong_numbers "svg" attrs
| wn_points name attrs cs : name = "polyline"%string \/ name = "polygon"%string ->
    List.In (mkAttr "points" (utf8 cs)) attrs -> wrong_list cs -> wrong_numbers name attrs
| wn_path attrs before k cs after : List.In (mkAttr "d" (utf8 (before ++ k :: cs ++ after))) attrs ->
    Forall scalar before -> Forall scalar after -> command_letter k -> Forall no_command cs -> wrong_list cs ->
    match after with [] => True | r :: _ => command_letter r end -> wrong_numbers "path" attrs.
(** the arguments of a transform function *)
Definition wrong_arguments (v : string) : Prop :=
  exists before l name m cs after, v = (before ++ l ++ name ++ m ++ "(" ++ utf8 cs ++ ")" ++ after)%string
    /\ (before = ""%string \/ ends_with (Ascii.eqb ")") before = true)
    /\ blank l = true /\ blank m = true
    /\ name <> ""%string /\ all_chars (fun c => is_alpha c) name = true
    /\ Forall (fun r => r < 128 /\ r <> 40 /\ r <> 41) cs
    /\ wrong_list cs.
End Words.
