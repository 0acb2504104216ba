(** * What is claimed of failing reads *)
From Verif Require Import Base FileModel FaultModel.
Open Scope list_scope. Open Scope nat_scope.

(** the bytes end within a line *)
Definition within_line (bs : bytes) : Prop := exists bs' b, bs = bs' ++ [b] /\ b <> 10%N.

(** reads, of which those that fail come at the start of a line: [tail] are the bytes got by the read before them *)
Inductive at_starts : bytes -> list got -> Prop :=
| starts_none tail : at_starts tail []
| starts_got tail bs rs : at_starts bs rs -> at_starts tail (Got bs :: rs)
| starts_broke tail rs : ~ within_line tail -> at_starts [] rs -> at_starts tail (Broke :: rs).
(** a file whose reads fail at most at line starts *)
Definition gently (h : handle) : Prop := at_starts (h_buf h) (h_reads h).

(** the same file when the reads that fail find the end of the file instead *)
Definition as_end (g : got) : got := match g with Broke => Got [] | _ => g end.
Definition healed (h : handle) : handle := mkHandle (h_buf h) (map as_end (h_reads h)).
Definition heal (m : list (string * handle)) : list (string * handle) := map (fun ph => (fst ph, healed (snd ph))) m.

(** a step between two rounds: some files come, the order is any; it does not look into the files *)
Definition comes_or_stays (P : handle -> Prop) (f : list (string * handle) -> list (string * handle)) : Prop :=
  forall m, (forall p h, In (p, h) m -> P h) -> forall p h, In (p, h) (f m) -> P h.

(** a file read without errors, whose bytes have come to its end: [text] is what is left of it to be read *)
Definition holds (h : handle) (text : bytes) : Prop :=
  exists pieces, h_reads h = map Got pieces /\ Forall (fun bs => bs <> []) pieces /\ text = h_buf h ++ List.concat pieces.
