(** * ExPath: concrete path data for the examples *)
From Verif Require Export SpecPath ProofsF64.

Definition num s i f := mkNum s i f None.
Definition V (n : Z) (d : positive) : F D := flit D n d.
(** " M10,20L-3.5.5 h2e-1z m+1 1" *)
Definition ex_cmds : list (cmd D) :=
  [MoveTo false (V 10 1, V 20 1) [];
   LineTo false (V (-7) 2, V 1 2) [];
   HLineTo true (V 2 10) [];
   ClosePath;
   MoveTo true (V 1 1, V 1 1) [(V 3 1, V 4 1)]].
Definition ex_text : string := " M10,20L-3.5.5 h2e-1z m+1 1 3,4".
Lemma ex_spells : spells D ex_text ex_cmds.
Proof.
  exists " ", "M10,20L-3.5.5 h2e-1z m+1 1 3,4". split; [reflexivity|]. split; [reflexivity|].
  unfold ex_cmds.
  apply (spells_cons D (MoveTo false (V 10 1, V 20 1) []) "10,20" "L-3.5.5 h2e-1z m+1 1 3,4").
  { exists [(""%string, num NoSign "10" None); (","%string, num NoSign "20" None)], ""%string. vm_compute. auto. }
  apply (spells_cons D (LineTo false (V (-7) 2, V 1 2) []) "-3.5.5 " "h2e-1z m+1 1 3,4").
  { exists [(""%string, num Minus "3" (Some "5"%string)); (""%string, num NoSign "" (Some "5"%string))], " "%string. vm_compute. auto. }
  apply (spells_cons D (HLineTo true (V 2 10) []) "2e-1" "z m+1 1 3,4").
  { exists [(""%string, mkNum NoSign "2" None (Some (true, "1"%string)))], ""%string. vm_compute. auto. }
  apply (spells_close_lower D " " "m+1 1 3,4"); [reflexivity|].
  apply (spells_cons D (MoveTo true (V 1 1, V 1 1) [(V 3 1, V 4 1)]) "+1 1 3,4" "").
  { exists [(""%string, num Plus "1" None); (" "%string, num NoSign "1" None);
            (" "%string, num NoSign "3" None); (","%string, num NoSign "4" None)], ""%string. vm_compute. auto. }
  apply spells_nil.
Qed.
