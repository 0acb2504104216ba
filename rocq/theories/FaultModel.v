(** * The file source when read(2) fails: src/source/file/file_watcher.rs and src/source/file/file_server.rs

    [FileModel.v] has the file system and reads that never fail.  Here each file is reduced to what its read(2) calls
    return, errors among them, and the text buffer that the loop of run shares among all files is explicit. *)
From Verif Require Import Base FileModel.
Open Scope list_scope. Open Scope nat_scope.

(** what one read(2) returns: bytes, none of them at the end of the file, or an error.  EINTR is not among the errors:
    read_until (standard library) tries again. *)
Inductive got := Got (bs : bytes) | Broke.

(** a watcher with an open file (file_watcher.rs:16-22): what BufReader holds, and what the reads to come return; when
    the list is used up the file is at its end for good.  Simplifications: the path goes on naming the open file and the
    file does not shrink, so that reader, id and reopen do not change; an error of kind NotFound, which would set reopen
    (file_watcher.rs:174-176), does not come from read(2). *)
Record handle := mkHandle { h_buf : bytes; h_reads : list got }.

(** read_until(b'\n') (standard library) with an empty BufReader: what is appended to the buffer, whether it succeeds,
    the handle afterwards *)
Fixpoint fetch (acc : bytes) (rs : list got) : bytes * bool * handle :=
  match rs with
  | [] => (acc, true, mkHandle [] [])
  | Broke :: rs => (acc, false, mkHandle [] rs)
  | Got [] :: rs => (acc, true, mkHandle [] rs)
  | Got bs :: rs =>
      match split_line bs with
      | Some (l, rest) => (acc ++ l, true, mkHandle rest rs)
      | None => fetch (acc ++ bs) rs
      end
  end.
(** read_until with what BufReader holds *)
Definition until_newline (h : handle) : bytes * bool * handle :=
  match h_buf h with
  | [] => fetch [] (h_reads h)
  | bs => match split_line bs with
          | Some (l, rest) => (l, true, mkHandle rest (h_reads h))
          | None => fetch bs (h_reads h)
          end
  end.

(** what FileWatcher::read_line does: the number of bytes it returns, an error, or the failing assertion *)
Inductive answer := Bytes (n : nat) | Error | Panic.

Section Fault.
(** str::from_utf8 succeeds (not in /repo) *)
Variable utf8_ok : bytes -> bool.
(** max_read_bytes, file_server.rs:25 *)
Variable max : nat.

(** read_line, file_watcher.rs:118-184 with an open reader, over BufRead::read_line (standard library, append_to_string):
    what read_until appended stays in the String, also when it failed, unless it is not UTF-8 *)
Definition read (h : handle) (text : bytes) : answer * handle * bytes :=
  let '(bs, ok, h) := until_newline h in
  if utf8_ok bs then
    let text := text ++ bs in
    if ok then
      match bs with
      | [] => (Bytes 0, h, text)
      | _ => if Nat.eqb (List.length bs) (List.length text)
             then (Bytes (List.length (pop text)), h, pop text)
             else (Panic, h, text)
      end
    else (Error, h, text)
  else (Error, h, text).

(** the inner loop of run, file_server.rs:107-122: the lines pushed, the handle and the buffer; None when the thread
    panics.  [fuel] bounds the calls of read_line as in [drain] of FileModel.v. *)
Fixpoint poll (fuel sofar : nat) (h : handle) (text : bytes) : option (list bytes * handle * bytes) :=
  match fuel with
  | 0 => Some ([], h, text)
  | S fuel =>
      match read h text with
      | (Panic, _, _) => None
      | (Error, h, text) => Some ([], h, text)
      | (Bytes 0, h, text) => Some ([], h, text)
      | (Bytes n, h, text) =>
          if max <? sofar + n then Some ([text], h, [])
          else match poll fuel (sofar + n) h [] with
               | Some (ls, h, t) => Some (text :: ls, h, t)
               | None => None
               end
      end
  end.
(** the line polling of one round, file_server.rs:105-138, over the files in the order in which the map is drained *)
Fixpoint polls (m : list (string * handle)) (text : bytes) : option (list (string * bytes) * list (string * handle) * bytes) :=
  match m with
  | [] => Some ([], [], text)
  | (p, h) :: m =>
      match poll (S max) 0 h text with
      | None => None
      | Some (ls, h, text) =>
          match polls m text with
          | None => None
          | Some (ls', m, text) => Some (map (fun l => (p, l)) ls ++ ls', (p, h) :: m, text)
          end
      end
  end.
(** the rounds of run, file_server.rs:92-176: the lines sent and whether the thread is still there.  Before each round
    the glob adds files and the map puts them in some order ([before]); a thread that panics has not sent the lines of its
    round (139-141). *)
Fixpoint serve (before : list (list (string * handle) -> list (string * handle))) (m : list (string * handle)) (text : bytes)
    : list (string * bytes) * bool :=
  match before with
  | [] => ([], true)
  | f :: before =>
      match polls (f m) text with
      | None => ([], false)
      | Some (ls, m, text) => let (ls', alive) := serve before m text in (ls ++ ls', alive)
      end
  end.
End Fault.
