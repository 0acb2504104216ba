(** * Flush timer, thread pool, listener tokens. *)
From Verif Require Import Base TelemetryModel FlowModel.
Open Scope list_scope. Open Scope nat_scope.

(** ** src/source/flush.rs:33-49, FlushTimer::run *)
Section Timer.
Context `{Q : QLib}.
(** one turn of the loop: the index is a u64, which wraps in release builds; the
    sleep is left out *)
Definition timer_turn (s : N * list chan) : N * list chan :=
  let '(idx, chans) := s in
  let idx' := ((idx + 1) mod 2 ^ 64)%N in
  (idx', fst (send chans (ETimerFlush idx'))).
(** [turns] turns from the start *)
Fixpoint timer_run (turns : nat) (s : N * list chan) : N * list chan :=
  match turns with O => s | S k => timer_run k (timer_turn s) end.
End Timer.

(** ** src/thread.rs, ThreadPool *)

(** How a spawned thread stands: running; its closure returned and it put its id on
    [joinable]; it panicked (the push is skipped, and joining it gives an Err). *)
Inductive tstat := TRunning | TDone | TCrashed.

(** ThreadPool, src/thread.rs:77-86, with the state of the threads, which the
    operating system keeps, and two logs: handles joined, ids handed to the caller. *)
Record pool := mkPool {
  p_next : nat;              (** thread_id *)
  p_joinable : list nat;     (** joinable, a stack: last in, first out *)
  p_threads : list (nat * unit); (** threads: the handles held *)
  p_stat : list (nat * tstat);
  p_joined : list nat;
  p_reported : list nat;
}.
(** new, src/thread.rs:90-97 *)
Definition pool_new : pool := mkPool 0 [] [] [] [] [].
(** spawn and next_thread_id, src/thread.rs:100-128 *)
Definition pool_spawn (p : pool) : pool :=
  let id := p_next p in
  mkPool (id + 1) (p_joinable p) (ainsert Nat.eqb id tt (p_threads p)) (ainsert Nat.eqb id TRunning (p_stat p)) (p_joined p) (p_reported p).
(** the end of a thread, src/thread.rs:107-118: lock, push, notify. *)
Definition pool_finish (id : nat) (p : pool) : pool :=
  match alookup Nat.eqb id (p_stat p) with
  | Some TRunning => mkPool (p_next p) (p_joinable p ++ [id]) (p_threads p) (ainsert Nat.eqb id TDone (p_stat p)) (p_joined p) (p_reported p)
  | _ => p
  end.
(** a thread that panics *)
Definition pool_crash (id : nat) (p : pool) : pool :=
  match alookup Nat.eqb id (p_stat p) with
  | Some TRunning => mkPool (p_next p) (p_joinable p) (p_threads p) (ainsert Nat.eqb id TCrashed (p_stat p)) (p_joined p) (p_reported p)
  | _ => p
  end.
(** the loop of join_ready, src/thread.rs:137-147; [l] is the stack, top first.
    None is the panic of expect in ThreadHandle::join (src/thread.rs:36-38). *)
Fixpoint join_stack (l : list nat) (p : pool) : option pool :=
  match l with
  | [] => Some (mkPool (p_next p) [] (p_threads p) (p_stat p) (p_joined p) (p_reported p))
  | id :: r =>
      match alookup Nat.eqb id (p_threads p) with
      | None => join_stack r (mkPool (p_next p) (p_joinable p) (p_threads p) (p_stat p) (p_joined p) (p_reported p ++ [id]))
      | Some _ =>
          match alookup Nat.eqb id (p_stat p) with
          | Some TCrashed => None
          | _ => join_stack r (mkPool (p_next p) (p_joinable p) (aremove Nat.eqb id (p_threads p)) (p_stat p) (p_joined p ++ [id]) (p_reported p ++ [id]))
          end
      end
  end.
Definition join_ready (p : pool) : option pool := join_stack (rev (p_joinable p)) p.
(** the drain of join and shutdown, src/thread.rs:131-134, 150-153: each handle in
    turn is (signalled and) joined; a thread that still runs then ends, [ends id]
    saying whether properly or by a panic. *)
Fixpoint drain (ends : nat -> bool) (hs : list nat) (p : pool) : option pool :=
  match hs with
  | [] => Some p
  | id :: r =>
      let p1 := if ends id then pool_finish id p else pool_crash id p in
      match alookup Nat.eqb id (p_stat p1) with
      | Some TCrashed => None
      | _ => drain ends r (mkPool (p_next p1) (p_joinable p1) (aremove Nat.eqb id (p_threads p1)) (p_stat p1) (p_joined p1 ++ [id]) (p_reported p1))
      end
  end.
Definition pool_shutdown (ends : nat -> bool) (p : pool) : option pool :=
  match drain ends (map fst (p_threads p)) p with
  | Some p' => join_ready p'
  | None => None
  end.

(** a history of a pool before it is shut down *)
Inductive pool_move := MSpawn | MFinish (id : nat) | MCrash (id : nat) | MJoinReady.
Definition pool_step (o : option pool) (m : pool_move) : option pool :=
  match o with
  | None => None
  | Some p => match m with
              | MSpawn => Some (pool_spawn p)
              | MFinish id => Some (pool_finish id p)
              | MCrash id => Some (pool_crash id p)
              | MJoinReady => join_ready p
              end
  end.
Definition pool_run (ms : list pool_move) : option pool := fold_left pool_step ms (Some pool_new).

(** ** src/util.rs:87-151, TokenSlab; src/constants.rs SYSTEM *)

(** slab::Slab::insert gives the next free index; nothing is ever removed from a
    TokenSlab, so that is its length. *)
Definition slab (E : Type) := list E.
Definition slab_insert {E} (s : slab E) (e : E) : slab E * nat := (s ++ [e], List.length s).
(** Index, src/util.rs:107-114; None is the panic of an invalid key *)
Definition slab_get {E} (s : slab E) (token : nat) : option E := nth_error s token.
Definition slab_count {E} (s : slab E) : nat := List.length s.
(** SYSTEM, src/constants.rs:9 *)
Definition system_token : N := 2048%N.
(** TCP::init, src/source/tcp.rs:69-108: all listeners of the addresses, and the
    token of the stream events *)
Fixpoint insert_all {E} (s : slab E) (l : list E) : slab E * list nat :=
  match l with
  | [] => (s, [])
  | e :: r => let '(s1, t) := slab_insert s e in
              let '(s2, ts) := insert_all s1 r in (s2, t :: ts)
  end.
