(** * The log: src/bin/cernan.rs:76-104. *)
From Coq Require Import String NArith DecimalString.
Open Scope string_scope. Open Scope N_scope.

(** log 0.4's Level, which a record has, from the most severe on *)
Inductive severity := LError | LWarn | LInfo | LDebug | LTrace.
(** log's numbers for the levels, which its comparison of a Level with a LevelFilter goes by: Error is 1, Trace 5 (Off, 0, is never asked for) *)
Definition severity_no (l : severity) : N := match l with LError => 1 | LWarn => 2 | LInfo => 3 | LDebug => 4 | LTrace => 5 end.
(** log's Display of a Level *)
Definition severity_text (l : severity) : string := match l with LError => "ERROR" | LWarn => "WARN" | LInfo => "INFO" | LDebug => "DEBUG" | LTrace => "TRACE" end.
(** What error!, warn!, info!, debug! and trace! hand to the logger; module path and line are optional in the log crate. The message is formatted already. *)
Record record := { r_module : option string; r_line : option N; r_level : severity; r_message : string }.
(** src/bin/cernan.rs:81-87: the filter for the number of times -v was given (config.rs:194-198; clap's counting itself is not modelled) *)
Definition level_of (verbose : N) : severity :=
  match verbose with
  | 0 => LError
  | 1 => LWarn
  | 2 => LInfo
  | 3 => LDebug
  | _ => LTrace
  end.
(** Display of a u32 *)
Definition show_line (n : N) : string := NilZero.string_of_uint (N.to_uint n).
(** src/bin/cernan.rs:90-98: the closure given to format(); [None] where it panics, on the unwrap of a record without module path or line. [now] is the text of Utc::now() *)
Definition format_record (now : string) (r : record) : option string :=
  match r_module r, r_line r with
  | Some m, Some l => Some ("[" ++ m ++ "][" ++ show_line l ++ "][" ++ now ++ "][" ++ severity_text (r_level r) ++ "] " ++ r_message r)
  | _, _ => None
  end.
(** What becomes of a record *)
Inductive logged := Hidden | Shown (text : string) | LogPanics.
(** src/bin/cernan.rs:89-103: fern's Dispatch with level() and one chain: a record less severe than the filter is dropped before it is formatted, others are formatted and written to stdout (a line each; failing writes are not modelled) *)
Definition log_record (verbose : N) (now : string) (r : record) : logged :=
  if (severity_no (r_level r) <=? severity_no (level_of verbose))%N then match format_record now r with Some s => Shown s | None => LogPanics end else Hidden.
