(** * SpecEndless: documents on which the drawing of masks goes round in circles *)
From Verif Require Export SpecDraw.

Section Endless.
Context {E : Env} (s : svg E).
(** following the masks of the paths of masks, [a] is, or leads to, a mask that leads back to itself *)
Definition to_cycle (a : string) : Prop := exists b, (a = b \/ mask_leads s a b) /\ mask_leads s b b.
(** a path of the document (not one that is only inside a mask) is limited by such a mask *)
Definition endless : Prop := exists p ids a, List.In p (sv_paths s) /\ path_masks s p = (ids ++ [a])%list /\ to_cycle a.
End Endless.
