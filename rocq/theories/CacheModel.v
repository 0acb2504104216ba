(** * Model of get_from_cache, src/sink/wavefront.rs:345-357 and src/sink/influxdb.rs:88-100
    (the same text twice). *)
From Verif Require Import Base.
Open Scope list_scope. Open Scope nat_scope.

Section Cache.
Context {T : Type}.
(** PartialOrd::partial_cmp and ToString::to_string of the type *)
Variable pcmp : T -> T -> option comparison.
Variable show : T -> string.

(** binary_search_by with the closure [probe.0.partial_cmp(&val).unwrap()]: as [bs_loop] and
    [bsearch] in Base.v, [None] when a probe cannot be compared (unwrap panics) *)
Fixpoint pbs_loop (v : T) (l : list (T * string)) (fuel base size : nat) : option nat :=
  match fuel with
  | O => Some base
  | S fuel' =>
      if size <=? 1 then Some base
      else
        let half := size / 2 in
        let mid := base + half in
        match nth_error l mid with
        | Some x => match pcmp (fst x) v with
                    | None => None
                    | Some Gt => pbs_loop v l fuel' base (size - half)
                    | Some _ => pbs_loop v l fuel' mid (size - half)
                    end
        | None => pbs_loop v l fuel' base (size - half)
        end
  end.
Definition pbsearch (v : T) (l : list (T * string)) : option found :=
  match l with
  | [] => Some (Missing 0)
  | _ =>
      match pbs_loop v l (List.length l) 0 (List.length l) with
      | None => None
      | Some base =>
          match nth_error l base with
          | Some x => match pcmp (fst x) v with
                      | Some Eq => Some (Found base)
                      | Some Lt => Some (Missing (base + 1))
                      | Some Gt => Some (Missing base)
                      | None => None
                      end
          | None => Some (Missing base)
          end
      end
  end.
(** get_from_cache: the text and the new cache; [None] = panic.  The code searches again
    after inserting; a second miss would recurse again: it is [None] here and shown not to occur. *)
Definition cache_get (c : list (T * string)) (v : T) : option (list (T * string) * string) :=
  match pbsearch v c with
  | None => None
  | Some (Found i) => match nth_error c i with Some x => Some (c, snd x) | None => None end
  | Some (Missing i) =>
      let c' := insert_at i (v, show v) c in
      match pbsearch v c' with
      | Some (Found j) => match nth_error c' j with Some x => Some (c', snd x) | None => None end
      | _ => None
      end
  end.
(** a sequence of lookups *)
Fixpoint cache_run (c : list (T * string)) (vs : list T) : option (list (T * string) * list string) :=
  match vs with
  | [] => Some (c, [])
  | v :: r => match cache_get c v with
              | Some (c', s) => match cache_run c' r with Some (c'', ss) => Some (c'', s :: ss) | None => None end
              | None => None
              end
  end.
End Cache.
