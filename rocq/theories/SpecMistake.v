(** * SpecMistake: mistakes in a document (C61)

    What is wrong with an element, an attribute or a style declaration, in terms of the text. *)
From Verif Require Export SpecStyle Elements.

Section Mistakes.
Context (E : Env).

(** ** Values *)
(** not a number with an optional unit *)
Definition bad_length (v : string) : Prop :=
  all_chars is_ascii v = true
  /\ forall l w m u r, v = (l ++ w ++ m ++ unit_text u ++ r)%string -> blank l = true -> blank m = true -> blank r = true ->
     parseFloat E w = None.
(** [s] holds [w] between separators (characters that satisfy [sep]) *)
Definition word_of (sep : ascii -> bool) (s w : string) : Prop :=
  exists a b, s = (a ++ w ++ b)%string /\ w <> ""%string /\ all_chars (fun c => negb (sep c)) w = true
    /\ (a = ""%string \/ ends_with sep a = true)
    /\ match b with EmptyString => True | String c _ => sep c = true end.
(** how often [d] occurs in [s] *)
Fixpoint occurrences (d : ascii) (s : string) : nat :=
  match s with EmptyString => 0 | String c r => (if Ascii.eqb c d then 1 else 0) + occurrences d r end.
(** not an integer with an optional sign and an optional percent sign *)
Definition bad_component (w : string) : Prop :=
  forall l sg d m p r, w = (l ++ sg ++ d ++ m ++ p ++ r)%string -> blank l = true -> blank m = true -> blank r = true ->
    List.In sg [""; "+"; "-"]%string -> List.In p [""; "%"]%string -> d <> ""%string -> digits d = false.
(** not a colour *)
Inductive bad_colour : string -> Prop :=
| bc_word v : all_chars is_ascii v = true -> hasPrefix (low_case v) "url" = false -> low_case v <> "none"%string ->
    colorname E (low_case v) = None -> hasPrefix v "#" = false -> hasPrefix v "rgb(" = false -> bad_colour v
| bc_rgb s : all_chars is_ascii s = true -> occurrences "," s <> 2 -> colorname E (low_case ("rgb(" ++ s ++ ")")) = None ->
    bad_colour ("rgb(" ++ s ++ ")")
| bc_component s w : all_chars is_ascii s = true -> colorname E (low_case ("rgb(" ++ s ++ ")")) = None ->
    (exists a b, s = (a ++ w ++ b)%string /\ lacks "," w = true /\ (a = ""%string \/ ends_with (Ascii.eqb ",") a = true)
       /\ (b = ""%string \/ exists b', b = String "," b')) -> bad_component w ->
    bad_colour ("rgb(" ++ s ++ ")")
| bc_hex s c : all_chars is_ascii s = true -> (String.length s = 3 \/ String.length s = 6) ->
    List.In c (list_ascii_of_string s) -> hex_val c = None -> colorname E (low_case (String "#" s)) = None ->
    bad_colour (String "#" s).
(** the numbers of arguments a transform function can have (one for translate is accepted, C18) *)
Definition tfun_args : list (string * list nat) :=
  [("translate", [1; 2]); ("scale", [1; 2]); ("rotate", [1; 3]); ("skewx", [1]); ("skewy", [1]); ("matrix", [6])]%string.
Definition tfun_takes (name : string) (n : nat) : bool :=
  existsb (fun e => String.eqb name (fst e) && existsb (Nat.eqb n) (snd e)) tfun_args.
(** a transform list with something in it that is no transform function *)
Inductive bad_transform : string -> Prop :=
| bt_no_call before v : (before = ""%string \/ ends_with (Ascii.eqb ")") before = true) ->
    all_chars is_ascii v = true -> blank v = false -> lacks "(" v = true -> lacks ")" v = true -> bad_transform (before ++ v)
| bt_args before l name m args vs after : (before = ""%string \/ ends_with (Ascii.eqb ")") before = true) ->
    blank l = true -> blank m = true -> name <> ""%string -> all_chars (fun c => is_alpha c) name = true ->
    spells_numbers E args vs -> vs <> [] -> tfun_takes (low_case name) (List.length vs) = false ->
    bad_transform (before ++ l ++ name ++ m ++ "(" ++ args ++ ")" ++ after)
| bt_no_args before l name m after : (before = ""%string \/ ends_with (Ascii.eqb ")") before = true) ->
    blank l = true -> blank m = true -> name <> ""%string -> all_chars (fun c => is_alpha c) name = true ->
    bad_transform (before ++ l ++ name ++ m ++ "()" ++ after).
(** a mask reference other than none and url(#id) *)
Inductive bad_selector : string -> Prop :=
| bs_no_url v : v <> ""%string -> v <> "none"%string -> hasPrefix v "url(" = false -> bad_selector v
| bs_open s : lacks ")" s = true -> bad_selector ("url(" ++ s)
| bs_no_id s r : lacks ")" s = true -> hasPrefix s "#" = false -> bad_selector ("url(" ++ s ++ ")" ++ r).

(** ** Style declarations *)
Definition number_names : list string :=
  ["stroke-width"; "stroke-dashoffset"; "stroke-miterlimit"; "opacity"; "fill-opacity"; "stroke-opacity"]%string.
Inductive bad_decl : string -> string -> Prop :=
| bd_number k v : List.In k number_names -> bad_length v -> bad_decl k v
| bd_dash v w : v <> "none"%string -> word_of dash_sep v w -> bad_length w -> bad_decl "stroke-dasharray" v
| bd_fill v : bad_colour v -> bad_decl "fill" v
| bd_stroke v : bad_colour v -> bad_decl "stroke" v
| bd_transform v : bad_transform v -> bad_decl "transform" v
| bd_mask v : bad_selector v -> bad_decl "mask" v.
(** keywords that are not supported: a mistake in strict mode *)
Definition words {A} (l : list (string * A)) : list string := map fst l.
Definition keywords : list (string * list string) :=
  [("fill-rule", ["evenodd"; "nonzero"]); ("stroke-linecap", words cap_words); ("stroke-leadlinecap", words cap_words);
   ("stroke-linegap", words gap_words); ("stroke-linejoin", words join_words)]%string.
Definition bad_keyword (k v : string) : Prop := exists ws, List.In (k, ws) keywords /\ ~ List.In v ws.

(** ** Elements *)
Definition lengths_of (name : string) : list string :=
  match List.find (fun e => String.eqb name (fst e))
    [("rect", ["x"; "y"; "width"; "height"; "rx"; "ry"]); ("circle", ["cx"; "cy"; "r"; "rx"; "ry"]);
     ("ellipse", ["cx"; "cy"; "r"; "rx"; "ry"]); ("line", ["x1"; "y1"; "x2"; "y2"]);
     ("mask", ["x"; "y"; "width"; "height"]); ("use", ["x"; "y"]); ("svg", ["width"; "height"])]%string
  with Some e => snd e | None => [] end.
(** the coordinates of gradients: here the last value counts *)
Definition coordinates_of (name : string) : list string :=
  match List.find (fun e => String.eqb name (fst e))
    [("linearGradient", ["x1"; "y1"; "x2"; "y2"]); ("radialGradient", ["cx"; "cy"; "fx"; "fy"; "r"; "fr"])]%string
  with Some e => snd e | None => [] end.
Fixpoint last_attr (n : string) (attrs : list attr) : option string :=
  match attrs with
  | [] => None
  | a :: r => match last_attr n r with
              | Some v => Some v
              | None => if String.eqb (a_name a) n then Some (a_val a) else None
              end
  end.
Inductive bad_element : string -> list attr -> Prop :=
| be_length name attrs n v : List.In n (lengths_of name) -> List.In (mkAttr n v) attrs -> bad_length v -> bad_element name attrs
| be_coordinate name attrs n v : List.In n (coordinates_of name) -> last_attr n attrs = Some v -> bad_length v -> bad_element name attrs
| be_viewBox attrs v xs : List.In (mkAttr "viewBox" v) attrs -> spells_numbers E v xs -> List.length xs <> 4 -> bad_element "svg" attrs
| be_points name attrs v xs : name = "polyline"%string \/ name = "polygon"%string ->
    List.In (mkAttr "points" v) attrs -> spells_numbers E v xs -> Nat.odd (List.length xs) = true -> bad_element name attrs
| be_gradient_transform name attrs v : name = "linearGradient"%string \/ name = "radialGradient"%string ->
    List.In (mkAttr "gradientTransform" v) attrs -> bad_transform v -> bad_element name attrs
| be_mask_id attrs : List.In (mkAttr "id" "") attrs -> bad_element "mask" attrs
| be_no_href attrs : last_attr "href" attrs = None -> bad_element "use" attrs
| be_href attrs v : last_attr "href" attrs = Some v -> hasPrefix v "#" = false -> bad_element "use" attrs.
(** path data in which a command has a wrong number of coordinates, after commands that are well-formed *)
Definition bad_path (d : string) : Prop :=
  exists lead body cs k sz t vs rest, d = (lead ++ body ++ String k (t ++ rest))%string
    /\ seps lead = true /\ spells_commands E body cs /\ closes_open E false cs = true
    /\ set_size k = Some sz /\ spells_numbers E t vs /\ good_count k (List.length vs) = false
    /\ match rest with EmptyString => True | String a _ => is_alpha a = true /\ a <> "e"%char end.

(** ** Where an element is *)
Definition gradient_name (name : string) : bool := String.eqb name "linearGradient" || String.eqb name "radialGradient".
(** the tokens [pre] leave a defs element open, a gradient open *)
Definition open_defs (pre : list token) : bool :=
  fold_left (fun (b : bool) t => match t with
    | TStart name _ => b || String.eqb name "defs"
    | TEnd name => b && negb (String.eqb name "defs")
    | _ => b
    end) pre false.
Definition open_gradient (pre : list token) : bool :=
  fold_left (fun (b : bool) t => match t with
    | TStart name _ => b || gradient_name name
    | TEnd name => b && negb (gradient_name name)
    | _ => b
    end) pre false.
(** an element [name] after [pre] is kept as a definition: it is in defs, and neither a gradient nor in one *)
Definition is_definition (pre : list token) (name : string) : bool :=
  open_defs pre && negb (gradient_name name) && negb (open_gradient pre).
(** no defs in defs *)
Definition flat_defs (toks : list token) : Prop :=
  forall pre attrs post, toks = pre ++ TStart "defs" attrs :: post -> is_definition pre "defs" = false.
(** [pre] defines the id *)
Definition defines (pre : list token) (id : string) : Prop :=
  exists p name attrs q, pre = p ++ TStart name attrs :: q /\ is_definition p name = true /\ last_attr "id" attrs = Some id.
(** stops, where they are in a gradient *)
Inductive bad_stop : list attr -> Prop :=
| bst_colour attrs v : List.In (mkAttr "stop-color" v) attrs -> bad_colour v -> bad_stop attrs
| bst_opacity attrs v : List.In (mkAttr "stop-opacity" v) attrs -> bad_length v -> bad_stop attrs
| bst_offset attrs v : List.In (mkAttr "offset" v) attrs -> bad_length v -> lacks "%" v = true -> bad_stop attrs.
(** the elements there are *)
Definition svg_names : list string :=
  ["svg"; "g"; "line"; "stop"; "rect"; "circle"; "ellipse"; "polyline"; "polygon"; "path"; "desc"; "defs"; "title";
   "linearGradient"; "radialGradient"; "mask"; "use"]%string.
End Mistakes.
