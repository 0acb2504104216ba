(** * Which lines a graphite connection hears, whatever arrives. *)
From Verif Require Import Base TelemetryModel ParseModel GraphiteModel GraphiteSpec Utf8.
Open Scope list_scope. Open Scope nat_scope.

(** [hears closed part bs ls part' left]: of the bytes [bs] that are there, with [part] of a line heard before, the lines [ls] are heard;
    [part'] is the part of the next line, and [left] waits for the next arrival.  A piece that is not UTF-8 is forgotten. *)
Inductive hears (closed : bool) : list N -> list N -> list (list N) -> list N -> list N -> Prop :=
| h_line part t r ls part' left : gline t -> utf8 t = true -> hears closed [] r ls part' left -> hears closed part (t ++ r) ((part ++ t) :: ls) part' left
| h_bad part t r : gline t -> utf8 t = false -> hears closed part (t ++ r) [] part r
| h_none part : hears closed part [] [] part []
| h_part part t : t <> [] -> ~ In 10%N t -> utf8 t = true -> closed = false -> hears closed part t [] (part ++ t) []
| h_last part t : t <> [] -> ~ In 10%N t -> utf8 t = true -> closed = true -> hears closed part t [part ++ t] [] []
| h_bad_part part t : ~ In 10%N t -> utf8 t = false -> hears closed part t [] part [].
(** arrival by arrival, until the shutdown *)
Inductive hearing : bool -> list N -> list N -> list gwake -> list (list N) -> list N -> list N -> Prop :=
| hg_none closed part left : hearing closed part left [] [] part left
| hg_data closed part left bs ws ls ls' p1 l1 p2 l2 : hears closed part (left ++ bs) ls p1 l1 -> hearing closed p1 l1 ws ls' p2 l2 -> hearing closed part left (GData bs :: ws) (ls ++ ls') p2 l2
| hg_close closed part left bs ws ls ls' p1 l1 p2 l2 : hears true part (left ++ bs) ls p1 l1 -> hearing true p1 l1 ws ls' p2 l2 -> hearing closed part left (GClose bs :: ws) (ls ++ ls') p2 l2
| hg_stop closed part left ws : hearing closed part left (GSystem :: ws) [] part left.
