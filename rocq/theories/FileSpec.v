(** * Specification of the file source. *)
From Verif Require Import Base FileModel.
From Coq Require Import Permutation.
Open Scope list_scope. Open Scope nat_scope.

(** a line is a text without newline; the bytes of lines written one after the other *)
Definition line (l : bytes) : Prop := ~ In 10%N l.
Definition unlines (ls : list bytes) : bytes := List.concat (map (fun l => l ++ [10%N]) ls).

(** the actions of others still to come *)
Definition coming (w : world) : list action := List.concat (sched w).
(** file i is only written to by appending complete lines *)
Definition lines_only (i : nat) (w : world) : Prop :=
  Forall (fun a => match a with
                   | Append j bs => j = i -> exists ls, Forall line ls /\ bs = unlines ls
                   | Rewrite j _ => j <> i
                   | _ => True
                   end) (coming w).
(** file i is not written to *)
Definition untouched (i : nat) (w : world) : Prop :=
  Forall (fun a => match a with Append j _ | Rewrite j _ => j <> i | _ => True end) (coming w).
(** path p names file i and goes on doing so *)
Definition stays (p : string) (i : nat) (w : world) : Prop :=
  named w p = Some i /\ Forall (fun a => match a with Link q _ | Unlink q => q <> p | _ => True end) (coming w).

(** the bytes of its file that a watcher has not returned yet *)
Definition unread (f : watcher) (w : world) : bytes :=
  match f_reader f with
  | Some r => r_buf r ++ skipn (r_off r) (files w (r_ino r))
  | None => []
  end.
(** the watcher holds file i of path p, at a place in the file; the file did not shrink since the last call *)
Definition holds (f : watcher) (p : string) (i : nat) (w : world) : Prop :=
  f_path f = p /\ f_id f = Some i /\ f_reopen f = false /\ f_prev f <= List.length (files w i) /\
  exists r, f_reader f = Some r /\ r_ino r = i /\ List.length (r_buf r) <= r_off r <= List.length (files w i).

(** the texts returned: empty ones are the end of the file or a blank line *)
Definition texts (os : list outcome) : list bytes :=
  flat_map (fun o => match o with Text (b :: r) => [b :: r] | _ => [] end) os.
(** the lines worth returning: not blank, and text *)
Definition good (utf8_ok : bytes -> bool) (ls : list bytes) : list bytes :=
  filter (fun l => match l with [] => false | _ => utf8_ok (l ++ [10%N]) end) ls.
(** what a call answers for each line in turn *)
Definition answers (utf8_ok : bytes -> bool) (ls : list bytes) : list outcome :=
  map (fun l => if utf8_ok (l ++ [10%N]) then Text l else Failed) ls.

(** the lines sent for a path *)
Definition sent_for (p : string) (ls : list (string * bytes)) : list bytes :=
  map snd (filter (fun x => seqb (fst x) p) ls).
(** a round drains the hash map in some order *)
Definition some_order (order : list (string * watcher) -> list (string * watcher)) : Prop := forall m, Permutation m (order m).
(** the bytes of one character of UTF-8: a first byte and the continuation bytes, 128 to 191, after it *)
Definition character (c : bytes) : Prop :=
  exists b r, c = b :: r /\ (b < 128 \/ 192 <= b)%N /\ Forall (fun x => 128 <= x < 192)%N r.
