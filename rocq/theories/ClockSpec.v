(** * What the claims about the clock speak of *)
From Verif Require Import Base ClockModel.
Open Scope list_scope. Open Scope Z_scope.

(** things happen one after the other *)
Definition in_time (tr : list tick) : Prop := forall a d b e c, tr = a ++ d :: b ++ e :: c -> instant d <= instant e.
(** the times that an i64 tells *)
Definition tells (wall : Z -> Z) (tr : list tick) : Prop := forall e, In e tr -> - 2 ^ 63 <= wall (instant e) < 2 ^ 63.
(** the wall clock is not set back *)
Definition steady (wall : Z -> Z) : Prop := forall i j, i <= j -> wall i <= wall j.
(** between an event and another more than [d] later the updater asks for the time and stores it *)
Definition updates (d : Z) (tr : list tick) : Prop := forall a e b f c, tr = a ++ e :: b ++ f :: c -> instant e + d < instant f ->
  exists b1 i b2 j b3, b = b1 ++ Samples i :: b2 ++ Stores j :: b3.
(** seconds, of a clock that counts milliseconds from some instant on *)
Definition seconds (off : Z) (i : Z) : Z := (i + off) / 1000.
