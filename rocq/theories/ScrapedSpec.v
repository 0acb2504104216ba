(** * A reader of the text format of prometheus, written from the description of
    that format and not from the sink: lines end with a line feed; a line that starts
    with "#" is a comment unless its second token is TYPE; any other line that is
    not empty is a sample: a name, labels in braces, a value and an optional time,
    separated by blanks.  Label values are quoted, with backslash escapes. *)
From Verif Require Import Base TelemetryModel WavefrontModel PrometheusModel.
Open Scope string_scope. Open Scope list_scope. Open Scope nat_scope.

Inductive scraped :=
| SType (name kind : string)
| SSample (name : string) (labels : list (string * string)) (value : string).

Definition lf : ascii := ascii_of_nat 10.
Definition dquote : ascii := ascii_of_nat 34.
Definition backslash : ascii := ascii_of_nat 92.
Definition code (c : ascii) : nat := nat_of_ascii c.
Definition between (a b : nat) (c : ascii) : bool := andb (a <=? code c) (code c <=? b).
Definition letter (c : ascii) : bool := orb (between 97 122 c) (orb (between 65 90 c) (Ascii.eqb c "_")).
Definition label_char (c : ascii) : bool := orb (letter c) (between 48 57 c).
Definition metric_char (c : ascii) : bool := orb (label_char c) (Ascii.eqb c ":").
Definition is_blank (c : ascii) : bool := orb (Ascii.eqb c " ") (code c =? 9).

Fixpoint text_lines (s : string) : list string :=
  match s with
  | "" => [""]
  | String c r => if Ascii.eqb c lf then "" :: text_lines r
                  else match text_lines r with h :: t => String c h :: t | [] => [String c ""] end
  end.
(** the longest prefix whose characters meet [p] *)
Fixpoint span (p : ascii -> bool) (s : string) : string * string :=
  match s with
  | "" => ("", "")
  | String c r => if p c then let '(a, b) := span p r in (String c a, b) else ("", s)
  end.
Definition skip (s : string) : string := snd (span is_blank s).
(** tokens between blanks *)
Fixpoint tokens (s : string) : list string :=
  match s with
  | "" => []
  | String c r =>
      if is_blank c then tokens r
      else match r with
           | "" => [String c ""]
           | String d _ => if is_blank d then String c "" :: tokens r
                           else match tokens r with h :: t => String c h :: t | [] => [String c ""] end
           end
  end.
Definition starts (p : ascii -> bool) (s : string) : bool := match s with "" => false | String c _ => p c end.
Definition metric_name (s : string) : bool := andb (starts (fun c => orb (letter c) (Ascii.eqb c ":")) s) (seqb (snd (span metric_char s)) "").
Definition label_name (s : string) : bool := andb (starts letter s) (seqb (snd (span label_char s)) "").

(** after the opening quotation mark *)
Fixpoint quoted (s : string) : option (string * string) :=
  match s with
  | "" => None
  | String c r =>
      if Ascii.eqb c dquote then Some ("", r)
      else if Ascii.eqb c backslash then
        match r with
        | "" => None
        | String d r' =>
            match quoted r' with
            | None => None
            | Some (v, rest) =>
                if Ascii.eqb d "n" then Some (String lf v, rest)
                else if orb (Ascii.eqb d dquote) (Ascii.eqb d backslash) then Some (String d v, rest) else None
            end
        end
      else match quoted r with Some (v, rest) => Some (String c v, rest) | None => None end
  end.
(** after the opening brace; [fuel]: no more labels than characters *)
Fixpoint labels (fuel : nat) (s : string) : option (list (string * string) * string) :=
  match fuel with
  | 0 => None
  | S fuel =>
      match skip s with
      | "" => None
      | String c r =>
          if Ascii.eqb c "}" then Some ([], r)
          else
            let '(k, r1) := span label_char (skip s) in
            if label_name k then
              match skip r1 with
              | String "=" r2 =>
                  match skip r2 with
                  | String q r3 =>
                      if Ascii.eqb q dquote then
                        match quoted r3 with
                        | Some (v, r4) =>
                            match skip r4 with
                            | String "}" r5 => Some ([(k, v)], r5)
                            | String "," r5 => match labels fuel r5 with Some (l, r6) => Some ((k, v) :: l, r6) | None => None end
                            | _ => None
                            end
                        | None => None
                        end
                      else None
                  | _ => None
                  end
              | _ => None
              end
            else None
      end
  end.
Fixpoint distinct (l : list string) : bool :=
  match l with [] => true | x :: r => andb (negb (existsb (seqb x) r)) (distinct r) end.
(** labels, if there are any, and what follows *)
Definition labelled (s : string) : option (list (string * string) * string) :=
  match s with
  | "" => Some ([], s)
  | String c r => if Ascii.eqb c "{" then labels (String.length r) r else Some ([], s)
  end.
Definition sample_line (s : string) : option scraped :=
  let '(name, r) := span metric_char s in
  if metric_name name then
    match labelled (skip r) with
    | Some (ls, r') =>
        if distinct (map fst ls) then
          match tokens r' with
          | [v] => Some (SSample name ls v)
          | [v; time] => Some (SSample name ls v)
          | _ => None
          end
        else None
    | None => None
    end
  else None.
Definition kinds : list string := ["counter"; "gauge"; "histogram"; "summary"; "untyped"].
(** one line: nothing to report, or a line of the exposition, or an error *)
Definition line_of (s : string) : option (list scraped) :=
  if starts (Ascii.eqb "#") s then
    match tokens s with
    | "#" :: "TYPE" :: more =>
        match more with
        | [n; k] => if andb (metric_name n) (existsb (seqb k) kinds) then Some [SType n k] else None
        | _ => None
        end
    | _ => Some []
    end
  else if seqb (skip s) "" then Some []
  else match sample_line s with Some x => Some [x] | None => None end.
Fixpoint all_lines (l : list string) : option (list scraped) :=
  match l with
  | [] => None
  | [last] => if seqb last "" then Some [] else None
  | x :: r => match line_of x, all_lines r with Some a, Some b => Some (a ++ b) | _, _ => None end
  end.
Definition typed (l : list scraped) : list string := flat_map (fun x => match x with SType n _ => [n] | _ => [] end) l.
(** a scrape: every line must be well-formed and no name may have a second TYPE line *)
Definition scrape_text (s : string) : option (list scraped) :=
  match all_lines (text_lines s) with
  | Some l => if distinct (typed l) then Some l else None
  | None => None
  end.

(** ** What a scraper should see of the lines of C49_content *)
Section Seen.
Variable show_f : f64 -> string.
Variable show_n : N -> string.
Definition seen_line (l : pline) : scraped :=
  match l with
  | PType n k => SType n k
  | PSample n own tags v =>
      SSample n (match own with Some kv => [kv] | None => [] end ++ tags) (match v with QF x => show_f x | QN x => show_n x end)
  end.
End Seen.

(** ** What makes an exposition readable *)
Fixpoint all_chars (p : ascii -> bool) (s : string) : bool := match s with "" => true | String c r => andb (p c) (all_chars p r) end.
(** a number is written with letters (inf, NaN), digits, points and signs *)
Definition token (s : string) : Prop :=
  s <> "" /\ all_chars (fun c => orb (label_char c) (orb (Ascii.eqb c ".") (orb (Ascii.eqb c "+") (Ascii.eqb c "-")))) s = true.
(** a text is fit to be between quotation marks as it is *)
Definition quotable (s : string) : Prop := all_chars (fun c => negb (orb (Ascii.eqb c dquote) (orb (Ascii.eqb c backslash) (Ascii.eqb c lf)))) s = true.
(** a tag: the key is a label name, other than the sink's own labels, and the value quotable *)
Definition tag_fit (kv : string * string) : Prop :=
  label_name (fst kv) = true /\ fst kv <> "le" /\ fst kv <> "quantile" /\ quotable (snd kv).
(** the sanitized name neither is empty nor starts with a digit *)
Definition name_fit (n : string) : Prop := metric_name (sanitize n) = true.
