(** * Specification of the wiring. *)
From Verif Require Import Base TopologyModel.
Open Scope string_scope. Open Scope list_scope. Open Scope nat_scope.

(** everything that forwards *)
Definition senders_of (g : config) : list (string * list string) := g_filters g ++ g_natives g ++ g_sources g.
(** [u] is configured to forward to [v] *)
Definition upstream (g : config) (u v : string) : Prop := exists fw, In (u, fw) (senders_of g) /\ In v fw.
(** [v] can be forwarded to: a sink or a filter *)
Definition receives (g : config) (v : string) : Prop := In v (g_sinks g) \/ In v (map fst (g_filters g)).
(** no id is used twice *)
Definition distinct_ids (g : config) : Prop := NoDup (g_sinks g ++ map fst (senders_of g)).
(** [l] lists the elements of [P], each once *)
Definition lists (l : list string) (P : string -> Prop) : Prop := NoDup l /\ forall x, In x l <-> P x.
