(** * What the randomized tests of the wavefront sink's padding check (src/sink/wavefront.rs:794-961) *)
From Verif Require Import Base TelemetryModel WavefrontModel.
Open Scope list_scope. Open Scope nat_scope.

Section Spec.
Context `{Q : QLib}.
(** Pad::is_zeroed, src/sink/wavefront.rs:175-181 *)
Definition reads_zero (p : pad) : bool := match p with PZero _ _ => true | PTelem t => t_is_zeroed t end.
Definition inserted (p : pad) : Prop := match p with PZero _ _ => True | PTelem _ => False end.
(** [p] and [q] come one after the other *)
Definition adjacent (out : list pad) (p q : pad) : Prop := exists o1 o2, out = o1 ++ p :: q :: o2.
End Spec.
