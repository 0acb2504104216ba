(** * A connection of the graphite source: src/source/graphite.rs *)
From Verif Require Import Base TelemetryModel ParseModel Utf8.
Open Scope string_scope. Open Scope list_scope. Open Scope nat_scope.

(** the bytes up to and including the first line feed, and the rest; None: there is no line feed *)
Fixpoint to_newline (bs : list N) : option (list N * list N) :=
  match bs with
  | [] => None
  | b :: r => if (b =? 10)%N then Some ([b], r)
              else match to_newline r with Some (l, r') => Some (b :: l, r') | None => None end
  end.

(** std::io::BufRead::read_line (not in /repo) on a socket that does not block:
    [avail] are the bytes not yet read (in the BufReader or the kernel), [closed] says
    whether the peer's end of the stream follows them, [line] is the String read into.
    Result: the number of bytes, or an error (None), the String and what is left.
    The bytes read are appended to the String if they are UTF-8 and thrown away if
    not, both when the line is complete and when the read fails with WouldBlock. *)
Definition read_line (closed : bool) (avail line : list N) : option nat * list N * list N :=
  let keep t := if utf8 t then line ++ t else line in
  match to_newline avail with
  | Some (t, rest) => ((if utf8 t then Some (List.length t) else None), keep t, rest)
  | None => ((if closed then if utf8 avail then Some (List.length avail) else None else None), keep avail, [])
  end.

Section Graphite.
Context `{Q : QLib}.
(** f64::from_str, i64::from_str, the words of str::split_whitespace (not in /repo) *)
Variable pf : string -> option f64.
Variable pi : string -> option Z.
Variable words : list N -> list string.
(** the metric that points are made from, src/source/graphite.rs:65 *)
Variable base : telemetry.
(** parse_graphite on a line, src/protocols/graphite.rs:9-47 *)
Definition gparse (line : list N) (res : list telemetry) : pout := graphite_words pf pi base (words line) res.

(** the handler is waiting in poll, has returned, or has panicked *)
Inductive gphase := GPolling | GReturned | GCrashed.
(** the variables of handle_stream, 57-66, the bytes to be read, what was sent and
    the counters GRAPHITE_GOOD_PACKET, GRAPHITE_TELEM and GRAPHITE_BAD_PACKET *)
Record gstate := mkG {
  g_line : list N; g_res : list telemetry; g_avail : list N; g_closed : bool;
  g_sent : list telemetry; g_good : N; g_telem : N; g_bad : N; g_phase : gphase;
}.
Definition graphite_start : gstate := mkG [] [] [] false [] 0 0 0 GPolling.

(** the while loop, 79-107; [fuel]: no more turns than bytes, see GraphiteProofs *)
Fixpoint gloop (fuel : nat) (s : gstate) : gstate :=
  match fuel with
  | 0 => s
  | S fuel =>
      let '(r, line, avail) := read_line (g_closed s) (g_avail s) (g_line s) in
      match r with
      | None | Some 0 => mkG line (g_res s) avail (g_closed s) (g_sent s) (g_good s) (g_telem s) (g_bad s) (g_phase s)
      | Some _ =>
          match gparse line (g_res s) with
          | PPanicked => mkG line (g_res s) avail (g_closed s) (g_sent s) (g_good s) (g_telem s) (g_bad s) GCrashed
          | PReturn true res => gloop fuel (mkG [] [] avail (g_closed s) (g_sent s ++ res) (g_good s + 1) (g_telem s + 1) (g_bad s) (g_phase s))
          | PReturn false res => gloop fuel (mkG [] res avail (g_closed s) (g_sent s) (g_good s) (g_telem s) (g_bad s + 1) (g_phase s))
          end
      end
  end.

(** What wakes the handler's poll, 68-79: bytes have arrived (the registration is
    edge triggered, src/source/tcp.rs:193-200: no other readiness event comes); the
    peer has closed the stream, after these bytes; SYSTEM. *)
Inductive gwake := GData (bs : list N) | GClose (bs : list N) | GSystem.
Definition graphite_step (s : gstate) (w : gwake) : gstate :=
  let more bs c := mkG (g_line s) (g_res s) (g_avail s ++ bs) c (g_sent s) (g_good s) (g_telem s) (g_bad s) (g_phase s) in
  let run s := gloop (1 + List.length (g_avail s)) s in
  match g_phase s with
  | GPolling =>
      match w with
      | GData bs => run (more bs (g_closed s))
      | GClose bs => run (more bs true)
      | GSystem => mkG (g_line s) (g_res s) (g_avail s) (g_closed s) (g_sent s) (g_good s) (g_telem s) (g_bad s) GReturned
      end
  | _ => s
  end.
(** handle_stream, 57-113 *)
Definition graphite_run (ws : list gwake) : gstate := fold_left graphite_step ws graphite_start.
End Graphite.
