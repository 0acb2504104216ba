(** * The text protocols: src/protocols/{statsd,graphite}.rs and the loops of
    src/source/{statsd,graphite}.rs that feed them. *)
From Verif Require Import Base TelemetryModel.
Open Scope string_scope. Open Scope list_scope. Open Scope nat_scope.

(** str::find of an ASCII character, together with the two slices around it *)
Fixpoint find_char (c : ascii) (s : string) : option (string * string) :=
  match s with
  | EmptyString => None
  | String x r => if Ascii.eqb x c then Some (EmptyString, r)
                  else match find_char c r with
                       | Some (a, b) => Some (String x a, b)
                       | None => None
                       end
  end.

Definition lf : ascii := "010"%char.
Definition cr : ascii := "013"%char.
(** one trailing carriage return is dropped *)
Fixpoint strip_cr (s : string) : string :=
  match s with
  | EmptyString => EmptyString
  | String x EmptyString => if Ascii.eqb x cr then EmptyString else s
  | String x r => String x (strip_cr r)
  end.
(** str::lines: split at line feeds, no empty last piece, carriage return before
    the end of a line dropped.  [cur] is the line being read, reversed. *)
Fixpoint srev (s acc : string) : string :=
  match s with EmptyString => acc | String x r => srev r (String x acc) end.
Fixpoint split_lines (cur s : string) : list string :=
  match s with
  | EmptyString => match cur with EmptyString => [] | _ => [srev cur EmptyString] end
  | String x r => if Ascii.eqb x lf then srev cur EmptyString :: split_lines EmptyString r
                  else split_lines (String x cur) r
  end.
Definition lines (s : string) : list string := map strip_cr (split_lines EmptyString s).

Section Parse.
Context `{Q : QLib}.

(** f64::from_str and i64::from_str (not in /repo) *)
Variable pf : string -> option f64.
Variable pi : string -> option Z.

(** StatsdParseConfig, src/source/statsd.rs:36-47; a mask is its match
    predicate (the regex crate is not in /repo) *)
Record statsd_cfg := mkStatsdCfg {
  sc_masks : list ((string -> bool) * list f64);
  sc_error : f64;
}.

Inductive pres := POk (t : telemetry) | PBad | PPanic.
Definition of_hres (h : hres) : pres := match h with HOk t => POk t | _ => PPanic end.

(** the mask loop, src/protocols/statsd.rs:105-115 and 135-145; None: [bounds]
    panics *)
Fixpoint mask_loop (masks : list ((string -> bool) * list f64)) (name : string) (m : soft) : option soft :=
  match masks with
  | [] => Some m
  | (re, bs) :: r => if re name then b_bounds bs (b_clear_error (b_kind MHistogram m)) else mask_loop r name m
  end.

Definition is_sign (s : string) : bool :=
  match s with String x _ => orb (Ascii.eqb x "+") (Ascii.eqb x "-") | EmptyString => false end.

(** one line: the body of the loop, src/protocols/statsd.rs:29-160 *)
Definition statsd_line (cfg : statsd_cfg) (now : Z) (base : telemetry) (src : string) : pres :=
  match find_char ":" src with
  | None => PBad
  | Some (name, after) =>
    if seqb name "" then PBad
    else if seqb after "" then PBad
    else
    match find_char "|" after with
    | None => PBad
    | Some (vtext, rest) =>
      match pf vtext with
      | None => PBad
      | Some val =>
        let metric := b_timestamp now (b_value val (b_name name (thaw base))) in
        let signed := is_sign after in
        let gauge m := b_kind (if signed then MSum else MSet) (b_persist true m) in
        let timer m := mask_loop (sc_masks cfg) name (b_error (sc_error cfg) (b_kind MSummarize (b_persist false m))) in
        if seqb rest "" then PBad
        else
        match find_char "@" rest with
        | Some (ty, stext) =>
            let scaled sample := fmul val (fdiv fone sample) in
            if orb (seqb ty "g|") (seqb ty "g") then
              match pf stext with
              | None => PBad
              | Some sample => of_hres (harden now (b_value (scaled sample) (gauge metric)))
              end
            else if orb (seqb ty "c|") (seqb ty "c") then
              match pf stext with
              | None => PBad
              | Some sample => of_hres (harden now (b_value (scaled sample) (b_persist false (b_kind MSum metric))))
              end
            else if orb (orb (seqb ty "ms") (seqb ty "ms|")) (orb (seqb ty "h") (seqb ty "h|")) then
              match pf stext with
              | None => PBad
              | Some sample => match timer metric with
                               | Some m => of_hres (harden now (b_value (scaled sample) m))
                               | None => PPanic
                               end
              end
            else PBad
        | None =>
            if seqb rest "g" then of_hres (harden now (gauge metric))
            else if orb (seqb rest "ms") (seqb rest "h") then
              match timer metric with Some m => of_hres (harden now m) | None => PPanic end
            else if seqb rest "c" then of_hres (harden now (b_persist false (b_kind MSum metric)))
            else PBad
        end
      end
    end
  end.

(** Outcome of a parser: the returned bool and the result vector, or a panic. *)
Inductive pout := PReturn (ok : bool) (res : list telemetry) | PPanicked.

(** the line loop; [res] is the caller's vector, to which points are pushed *)
Fixpoint statsd_loop (cfg : statsd_cfg) (now : Z) (base : telemetry) (ls : list string) (res : list telemetry) : pout :=
  match ls with
  | [] => PReturn (negb (Nat.eqb (List.length res) 0)) res
  | l :: r => match statsd_line cfg now base l with
              | POk t => statsd_loop cfg now base r (res ++ [t])
              | PBad => PReturn false res
              | PPanic => PPanicked
              end
  end.
(** parse_statsd, src/protocols/statsd.rs:22-163.  Simplification: the clock does
    not advance within a packet. *)
Definition parse_statsd (cfg : statsd_cfg) (now : Z) (base : telemetry) (source : string) (res : list telemetry) : pout :=
  statsd_loop cfg now base (lines source) res.

(** parse_graphite, src/protocols/graphite.rs:9-47.  The words of
    str::split_whitespace (Unicode white space, not in /repo) are the argument. *)
Fixpoint graphite_words (base : telemetry) (ws : list string) (res : list telemetry) : pout :=
  match ws with
  | [] => PReturn (negb (Nat.eqb (List.length res) 0)) res
  | name :: val :: time :: r =>
      match pf val with
      | None => PReturn false res
      | Some v =>
          match pi time with
          | None => PReturn false res
          | Some ts =>
              match harden 0 (b_timestamp ts (b_kind MSet (b_value v (b_name name (thaw base))))) with
              | HOk t => graphite_words base r (res ++ [t])
              | _ => PPanicked
              end
          end
      end
  | _ => PReturn false res
  end.

(** The source loops over a parser [parse : packet -> vector -> outcome]:
    src/source/statsd.rs:96-131 (one datagram per step) and
    src/source/graphite.rs:79-107 (one line per step).  On success the vector is
    drained into the forwards, on failure it is left as it is.  Result: what was
    sent, the vector, the numbers of good and bad packets; None is a panic. *)
Fixpoint source_loop {P} (parse : P -> list telemetry -> pout) (ps : list P) (res : list telemetry)
    : option (list telemetry * list telemetry * N * N) :=
  match ps with
  | [] => Some ([], res, 0%N, 0%N)
  | p :: r =>
      match parse p res with
      | PPanicked => None
      | PReturn true res' =>
          match source_loop parse r [] with
          | Some (sent, kept, g, b) => Some (res' ++ sent, kept, (g + 1)%N, b)
          | None => None
          end
      | PReturn false res' =>
          match source_loop parse r res' with
          | Some (sent, kept, g, b) => Some (sent, kept, g, (b + 1)%N)
          | None => None
          end
      end
  end.
End Parse.
