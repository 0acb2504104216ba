(** * cernan's clock: src/time.rs *)
From Verif Require Import Base WavefrontModel.
Open Scope list_scope. Open Scope Z_scope.

Section Clock.
(** Utc::now().timestamp() at an instant (in milliseconds) *)
Variable wall : Z -> Z.

(** What the threads do to the clock, each at an instant.  [Reads]: any thread calls now() (16-18).  [Samples]: the thread
    of update_time (src/bin/cernan.rs:787-789) wakes and asks for the time (25); [Stores]: it stores what it was told (26-27).
    The relaxed loads and stores of the one atomic are taken one after the other. *)
Inductive tick := Reads (i : Z) | Samples (i : Z) | Stores (i : Z).
Definition instant (e : tick) : Z := match e with Reads i | Samples i | Stores i => i end.

(** the static, 11-13, which lazy_static fills in when it is first used; the variable of the updater's loop *)
Record clock := mkClock { ck_now : option N; ck_sample : option N }.
Definition ck_start : clock := mkClock None None.
(** timestamp() as usize: 64 bits, two's complement *)
Definition as_usize (z : Z) : N := Z.to_N (z mod 2 ^ 64).
Definition touch (i : Z) (c : clock) : N := match ck_now c with Some n => n | None => as_usize (wall i) end.

(** one step and, of a reading, what now() returns *)
Definition ck_step (c : clock) (e : tick) : option (clock * option Z) :=
  match e with
  | Reads i => let n := touch i c in Some (mkClock (Some n) (ck_sample c), Some (as_i64 n))
  | Samples i => match ck_sample c with None => Some (mkClock (ck_now c) (Some (as_usize (wall i))), None) | Some _ => None end
  | Stores i => match ck_sample c with Some n => Some (mkClock (Some n) None, None) | None => None end
  end.
(** the readings of a run, in order; [None]: the updater does not do this *)
Fixpoint ck_run (tr : list tick) (c : clock) : option (clock * list Z) :=
  match tr with
  | [] => Some (c, [])
  | e :: r =>
      match ck_step c e with
      | Some (c', o) => match ck_run r c' with Some (c'', l) => Some (c'', match o with Some z => z :: l | None => l end) | None => None end
      | None => None
      end
  end.
End Clock.
