(** * How length-prefixed bytes are read when the socket runs dry anywhere, inside length fields too. *)
From Verif Require Import Base FramingModel FramingSpec.
Open Scope list_scope. Open Scope nat_scope.

(** the bytes that arrive, in the portions between the moments at which the socket has none *)
Fixpoint portions (sc : list arrival) : list (list N) :=
  match sc with
  | [] => [[]]
  | ABlock :: r => [] :: portions r
  | AData bs :: r => match portions r with s :: rest => (bs ++ s) :: rest | [] => [bs] end
  | _ :: r => portions r
  end.
(** the next [n] bytes, across portions, and what is left *)
Fixpoint takes (n : nat) (l : list (list N)) : option (list N * list (list N)) :=
  match l with
  | [] => None
  | s :: r => if n <=? List.length s then Some (firstn n s, skipn n s :: r)
              else match takes (n - List.length s) r with Some (p, r') => Some (s ++ p, r') | None => None end
  end.
(** [reads max l ps e]: of the portions [l] the payloads [ps] are read, then the stream ends with [e].  A length field must be in one
    portion; fewer than four bytes at the end of a portion where one is due are forgotten. *)
Inductive reads (max : nat) : list (list N) -> list (list N) -> perr -> Prop :=
| rd_lost s s' r ps e : List.length s < 4 -> reads max (s' :: r) ps e -> reads max (s :: s' :: r) ps e
| rd_closed s : List.length s < 4 -> reads max [s] [] EEof
| rd_large l s r : List.length l = 4 -> max < be_dec l -> reads max ((l ++ s) :: r) [] ETooLarge
| rd_empty l s r : List.length l = 4 -> be_dec l = 0 -> reads max ((l ++ s) :: r) [] EEof
| rd_payload l s r p l' ps e : List.length l = 4 -> 0 < be_dec l <= max -> takes (be_dec l) (s :: r) = Some (p, l') -> reads max l' ps e ->
    reads max ((l ++ s) :: r) (p :: ps) e
| rd_cut_short l s r : List.length l = 4 -> 0 < be_dec l <= max -> takes (be_dec l) (s :: r) = None -> reads max ((l ++ s) :: r) [] EEof.
