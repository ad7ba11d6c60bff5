(** * SpecValid: which elements are accepted (C74)

    What makes an element right, in terms of its name and of the texts of its attributes. *)
From Verif Require Export SpecLocal SpecMistake SpecData SpecTrans.

Section Valid.
Context (E : Env) (mode : errorMode).

(** ** Values *)
(** [w] is what stands before the unit of [v], or all of [v] when it ends in no unit; blanks around it do not belong to it *)
Inductive length_digits : string -> string -> Prop :=
| ld_unit v m u w : u <> UNone -> padded v (m ++ unit_text u) -> padded m w -> length_digits v w
| ld_plain v w : padded v w -> (forall m u, u <> UNone -> w <> (m ++ unit_text u)%string) -> length_digits v w.
(** a number with an optional unit *)
Definition valid_length (v : string) : Prop := exists w, length_digits v w /\ parseFloat E w <> None.
(** an integer of 64 bits with an optional sign *)
Definition valid_integer (w : string) : Prop :=
  exists sg d, w = (sg ++ d)%string /\ List.In sg [""; "+"; "-"]%string /\ decimal d = true
    /\ (- 2 ^ 63 <= (if String.eqb sg "-" then - dec_val d else dec_val d) < 2 ^ 63)%Z.
(** one of the three values of rgb(): an integer with an optional percent sign *)
Definition valid_component (s : string) : Prop :=
  exists b p w, s = (b ++ p)%string /\ List.In p [""; "%"]%string /\ padded b w /\ valid_integer w.
Definition hex (c : ascii) : Prop := hex_val c <> None.
(** a colour: a reference, none, a name, rgb() with three values and possibly without its closing bracket, six hexadecimal digits,
    or any other number of characters that begins with three of them *)
Definition valid_colour (v : string) : Prop :=
  hasPrefix (low_case v) "url" = true \/ low_case v = "none"%string \/ colorname E (low_case v) <> None
  \/ (exists a b c p, v = ("rgb(" ++ a ++ "," ++ b ++ "," ++ c ++ p)%string /\ List.In p [""; ")"]%string
        /\ valid_component a /\ valid_component b /\ valid_component c)
  \/ (exists s, v = String "#" s /\ String.length s = 6 /\ Forall hex (list_ascii_of_string s))
  \/ (exists a b c r, v = String "#" (String a (String b (String c r))) /\ String.length r <> 3 /\ hex a /\ hex b /\ hex c).
(** nothing, none, or url(#id) with anything after it *)
Definition valid_selector (v : string) : Prop :=
  v = ""%string \/ v = "none"%string \/ exists id r, v = ("url(#" ++ id ++ ")" ++ r)%string /\ lacks ")" id = true.
(** none, or words between commas and spaces, all of them lengths *)
Definition valid_dashes (v : string) : Prop := v = "none"%string \/ forall w, word_of dash_sep v w -> valid_length w.
(** a text whose words are these numbers *)
Definition number_list (v : string) (xs : list (F E)) : Prop :=
  Forall2 (fun w x => word_value E w = Some x) (number_words (ascii_chars v)) xs.

(** ** Style declarations *)
Record valid_decl (k v : string) : Prop := mkValidDecl {
  vd_number : List.In k number_names -> valid_length v;
  vd_dashes : k = "stroke-dasharray"%string -> valid_dashes v;
  vd_colour : k = "fill"%string \/ k = "stroke"%string -> valid_colour v;
  vd_transform : k = "transform"%string -> exists fs, transform_reads_as E v fs;
  vd_mask : k = "mask"%string -> valid_selector v;
  vd_keyword : forall ws, List.In (k, ws) keywords -> List.In v ws \/ mode <> StrictErrorMode }.
(** [s] holds [p] between two separators [d], or between one of them and an end *)
Definition piece_of (d : ascii) (s p : string) : Prop :=
  exists a b, s = (a ++ p ++ b)%string /\ lacks d p = true /\ (a = ""%string \/ ends_with (Ascii.eqb d) a = true)
    /\ (b = ""%string \/ exists b', b = String d b').
(** the text [s] declares [v] for [k]: what follows a second colon does not count *)
Definition declaration (s k v : string) : Prop :=
  exists n t r k', s = (n ++ ":" ++ t ++ r)%string /\ lacks ":" n = true /\ lacks ":" t = true
    /\ (r = ""%string \/ exists r', r = String ":" r') /\ padded n k' /\ k = low_case k' /\ padded t v.
(** an attribute is a declaration, style (in any case) a list of them *)
Definition declares (a : attr) (k v : string) : Prop :=
  if String.eqb (low_case (a_name a)) "style" then exists s, piece_of ";" (a_val a) s /\ declaration s k v
  else declaration (a_name a ++ ":" ++ a_val a) k v.

(** ** Elements *)
Record valid_attribute (name : string) (a : attr) : Prop := mkValidAttr {
  va_length : List.In (a_name a) (lengths_of name) -> valid_length (a_val a);
  va_mask : name = "mask"%string -> a_name a = "id"%string -> a_val a <> ""%string;
  va_viewBox : name = "svg"%string -> a_name a = "viewBox"%string -> exists xs, number_list (a_val a) xs /\ List.length xs = 4;
  va_points : name = "polyline"%string \/ name = "polygon"%string -> a_name a = "points"%string ->
    exists xs, number_list (a_val a) xs /\ Nat.even (List.length xs) = true;
  va_data : name = "path"%string -> a_name a = "d"%string -> right_data E mode (ascii_chars (a_val a)) }.
Record valid_element (el : string * list attr) : Prop := mkValid {
  ve_name : List.In (fst el) svg_names \/ mode <> StrictErrorMode;
  ve_attrs : Forall (valid_attribute (fst el)) (snd el);
  ve_decls : forall a k v, List.In a (snd el) -> declares a k v -> valid_decl k v }.
(** ** Stops and gradients *)
(** a length after which there can be one more percent sign *)
Definition valid_fraction (v : string) : Prop :=
  exists w, padded v w /\ ((exists m, w = (m ++ "%")%string /\ valid_length m) \/ ((forall m, w <> (m ++ "%")%string) /\ valid_length w)).
Fixpoint first_attr (n : string) (attrs : list attr) : option string :=
  match attrs with [] => None | a :: r => if String.eqb (a_name a) n then Some (a_val a) else first_attr n r end.
(** a stop has its attributes and, from the first attribute "style", its colour and opacity *)
Inductive stop_value (attrs : list attr) : string -> string -> Prop :=
| sv_attr k v : List.In (mkAttr k v) attrs -> stop_value attrs k v
| sv_style st s n k t v : first_attr "style" attrs = Some st -> piece_of ";" st s -> s = (n ++ ":" ++ t)%string -> lacks ":" n = true ->
    padded n k -> padded t v -> low_case k = "stop-color"%string \/ low_case k = "stop-opacity"%string -> stop_value attrs (low_case k) v.
Definition valid_stop (attrs : list attr) : Prop := forall k v, stop_value attrs k v ->
  (k = "offset"%string -> valid_fraction v) /\ (k = "stop-color"%string -> valid_colour v) /\ (k = "stop-opacity"%string -> valid_length v).
(** coordinates that are not given *)
Definition defaults_of (name : string) : list (string * string) :=
  if String.eqb name "linearGradient" then [("x1", "0%"); ("y1", "0%"); ("x2", "100%"); ("y2", "0")]%string
  else [("cx", "50%"); ("cy", "50%"); ("r", "50%"); ("fr", "50%")]%string.
(** where a coordinate is given more than once, the last of them counts *)
Record valid_gradient (name : string) (attrs : list attr) : Prop := mkValidGrad {
  vg_given : forall n v, List.In n (coordinates_of name) -> last_attr n attrs = Some v -> valid_length v;
  vg_default : forall n v, List.In (n, v) (defaults_of name) -> last_attr n attrs = None -> valid_length v;
  vg_transform : forall v, List.In (mkAttr "gradientTransform" v) attrs -> exists fs, transform_reads_as E v fs }.

(** ** Where an element stands *)
(** the elements of a tree and whether they stand in <defs> and in a gradient; [d], [g]: whether the tree does *)
Fixpoint placed (d g : bool) (n : node) : list (bool * bool * (string * list attr)) :=
  match n with
  | Elem name attrs kids => (d, g, (name, attrs)) :: flat_map (placed (d || String.eqb name "defs") (g || is_grad_name name)) kids
  | Chars _ | Misc => []
  end.
(** in <defs> everything is kept for later but gradients and what is in them *)
Definition kept (d g : bool) (name : string) : bool := d && negb g && negb (is_grad_name name).
Record valid_at (p : bool * bool * (string * list attr)) : Prop := mkValidAt {
  vt_decls : forall a k v, List.In a (snd (snd p)) -> declares a k v -> valid_decl k v;
  vt_name : kept (fst (fst p)) (snd (fst p)) (fst (snd p)) = false -> List.In (fst (snd p)) svg_names \/ mode <> StrictErrorMode;
  vt_attrs : kept (fst (fst p)) (snd (fst p)) (fst (snd p)) = false -> Forall (valid_attribute (fst (snd p))) (snd (snd p));
  vt_stop : snd (fst p) = true -> fst (snd p) = "stop"%string -> valid_stop (snd (snd p));
  vt_gradient : is_grad_name (fst (snd p)) = true -> valid_gradient (fst (snd p)) (snd (snd p)) }.
Definition ascii_attrs (el : string * list attr) : Prop :=
  Forall (fun a => all_chars is_ascii (a_name a) = true /\ all_chars is_ascii (a_val a) = true) (snd el).
End Valid.
