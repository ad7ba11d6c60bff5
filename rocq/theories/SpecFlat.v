(** * SpecFlat: groups whose attributes are written on their children instead *)
From Verif Require Export SpecErase SpecTidy.

(** the attributes of a group that only set style properties, but no transform and no mask *)
Definition group_attrs (attrs : list attr) : Prop :=
  (exists ds, attrs_decls attrs ds /\ Forall (fun d => fst d <> "transform"%string /\ fst d <> "mask"%string) ds)
  /\ Forall (fun a => ~ List.In (a_name a) element_names) attrs.
(** elements that no style depends on, and that do not draw definitions *)
Fixpoint quiet_tree (n : node) : bool :=
  match n with
  | Elem name _ kids =>
    negb (existsb (String.eqb name) ["svg"; "defs"; "use"; "linearGradient"; "radialGradient"]%string) && forallb quiet_tree kids
  | _ => true
  end.
(** those, in which titles and descriptions are not nested *)
Definition heir (n : node) : bool := quiet_tree n && flat_in "title" n && flat_in "desc" n.
(** the node with further attributes, read before its own *)
Definition inherit (above : list attr) (n : node) : node :=
  match n with
  | Elem name attrs kids => Elem name (above ++ attrs) kids
  | _ => n
  end.
(** [flattened above ns ms]: [ms] is [ns] without some of its groups; the attributes of these groups,
    and those in [above], are written on the elements inside *)
Inductive flattened : list attr -> list node -> list node -> Prop :=
| fl_nil above : flattened above [] []
| fl_keep above n ns ms : heir n = true -> flattened above ns ms -> flattened above (n :: ns) (inherit above n :: ms)
| fl_group above attrs kids ms1 ns ms2 : group_attrs attrs -> flattened (above ++ attrs) kids ms1 -> flattened above ns ms2 ->
    flattened above (Elem "g" attrs kids :: ns) (ms1 ++ ms2).
