(** * Specification of the wavefront sink. *)
From Verif Require Import Base TelemetryModel BucketsModel WavefrontModel.
Open Scope string_scope. Open Scope list_scope. Open Scope nat_scope.

Section Spec.
Context `{Q : QLib}.
Variable hkind : list string -> method -> N.

(** the points of a padded stream that were not inserted *)
Definition originals (l : list pad) : list telemetry := flat_map (fun p => match p with PTelem t => [t] | PZero _ _ => [] end) l.

(** [out] is [l] where before each point [x] up to two zero points were put, of points related to [x] *)
Section Woven.
Variable R : telemetry -> telemetry -> Prop.
Inductive woven : list telemetry -> list pad -> Prop :=
| woven_nil : woven [] []
| woven_cons zs x l out :
    List.length zs <= 2 ->
    Forall (fun z => exists t ts, z = PZero t ts /\ R t x) zs ->
    woven l out -> woven (x :: l) (zs ++ PTelem x :: out).
End Woven.
(** the hash tells the points' series and kinds apart *)
Definition hash_faithful (l : list telemetry) : Prop :=
  forall a b, In a l -> In b l -> t_hash hkind a = t_hash hkind b -> series_key a = series_key b /\ t_kind a = t_kind b.

(** whether the configuration asks for padding of a kind of point *)
Definition wants_padding (c : pad_control) (k : method) : bool :=
  match k with MSet => pc_set c | MSum => pc_sum c | MSummarize => pc_summarize c | MHistogram => pc_histogram c end.
Definition i64_ok (z : Z) : Prop := (i64_min <= z <= i64_max)%Z.

(** ** text: one line per reported number *)
Inductive wnum := WF (x : f64) | WN (n : N).
Variable show_f : f64 -> string.
Variable show_n : N -> string.
Variable show_z : Z -> string.
Definition bound_text (b : bound) : string := match b with BFinite x => show_f x | BPosInf => "pos_inf" end.
Definition point_lines (percentiles : list (string * f64)) (t : telemetry) : list (string * wnum) :=
  match t_value t with
  | VSet x | VSum x => [(t_name t, WF x)]
  | VHist h => map (fun b => ((t_name t ++ "_" ++ bound_text (fst b))%string, WN (snd b))) (h_bins h)
  | VQuant c _ =>
      map (fun p => ((t_name t ++ "." ++ fst p)%string,
                     WF (match c_query c (snd p) with Some (_, x) => x | None => fnan end))) percentiles
      ++ [((t_name t ++ ".count")%string, WN (t_count t));
          ((t_name t ++ ".mean")%string, WF (match c_cma c with Some m => m | None => fzero end))]
  end.
Definition num_text (n : wnum) : string := match n with WF x => show_f x | WN n => show_n n end.
Definition tags_text (tags : tagmap) : string := String.concat " " (map (fun kv => (fst kv ++ "=" ++ snd kv)%string) tags).
Definition line_text (tags : string) (ts : Z) (l : string * wnum) : string :=
  (fst l ++ " " ++ num_text (snd l) ++ " " ++ show_z ts ++ " " ++ tags ++ nl)%string.
Definition texts (l : list string) : string := fold_right String.append "" l.
Definition point_text (tags : tagmap) (percentiles : list (string * f64)) (t : telemetry) : string :=
  texts (map (line_text (tags_text (tag_iter (t_tags t) tags)) (t_timestamp t)) (point_lines percentiles t)).
(** what is shown for a pad: an original point as it is, a zero by its zero point *)
Definition shown (now : Z) (p : pad) (t : telemetry) : Prop :=
  match p with PTelem x => t = x | PZero x ts => zero_point now x ts = Some t end.

(** one flush's writes: failed writes of a text, then one accepted complete write of the same text *)
Definition flushed (text : string) (log : list (string * bool * nat)) : Prop :=
  exists fails : list nat, log = map (fun n => (text, false, n)) fails ++ [(text, true, String.length text)].
End Spec.
(** connections the network granted *)
Definition connects (ans : list wanswer) : nat := List.length (filter (fun a => match a with AConnect true => true | _ => false end) ans).
