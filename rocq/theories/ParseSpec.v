(** * Specification of the text protocols. *)
From Verif Require Import Base TelemetryModel ParseModel.
Open Scope string_scope. Open Scope list_scope. Open Scope nat_scope.

(** ** Grammar *)
Inductive stype := TGauge | TCounter | TTimer | THistogram.
Definition stype_text (t : stype) : string :=
  match t with TGauge => "g" | TCounter => "c" | TTimer => "ms" | THistogram => "h" end.
(** the character does not occur *)
Fixpoint free_of (c : ascii) (s : string) : Prop :=
  match s with EmptyString => True | String x r => x <> c /\ free_of c r end.
Fixpoint free_ofb (c : ascii) (s : string) : bool :=
  match s with EmptyString => true | String x r => negb (Ascii.eqb x c) && free_ofb c r end%bool.

(** name ':' value '|' type, or name ':' value '|' type ['|'] '@' rate *)
Definition line_text (name vtext : string) (ty : stype) (rate : option (bool * string)) : string :=
  (name ++ ":" ++ vtext ++ "|" ++ stype_text ty ++
   match rate with
   | None => ""
   | Some (bar, r) => (if bar then "|" else "") ++ "@" ++ r
   end)%string.

Definition explicitly_signed (vtext : string) : bool :=
  match vtext with
  | String x _ => orb (Ascii.eqb x "+") (Ascii.eqb x "-")
  | EmptyString => false
  end.

Section Spec.
Context `{Q : QLib}.
Variable pf : string -> option f64.
Variable pi : string -> option Z.

(** what a line says *)
Record stat := mkStat {
  st_name : string; st_value : f64; st_signed : bool; st_type : stype; st_rate : option f64;
}.
Inductive says (src : string) : stat -> Prop :=
| says_plain name vtext v ty :
    name <> "" -> free_of ":" name -> free_of "|" vtext -> pf vtext = Some v ->
    src = line_text name vtext ty None ->
    says src (mkStat name v (explicitly_signed vtext) ty None)
| says_sampled name vtext v ty bar rtext rate :
    name <> "" -> free_of ":" name -> free_of "|" vtext -> pf vtext = Some v -> pf rtext = Some rate ->
    src = line_text name vtext ty (Some (bar, rtext)) ->
    says src (mkStat name v (explicitly_signed vtext) ty (Some rate)).

(** ** Meaning of a line *)
Definition scaled (s : stat) : f64 :=
  match st_rate s with None => st_value s | Some r => fmul (st_value s) (fdiv fone r) end.
(** bounds of the first mask that matches *)
Fixpoint first_mask (masks : list ((string -> bool) * list f64)) (name : string) : option (list f64) :=
  match masks with
  | [] => None
  | (re, bs) :: r => if re name then Some bs else first_mask r name
  end.
(** the point of a line *)
Definition means (cfg : statsd_cfg) (now : Z) (base : telemetry) (s : stat) (t : telemetry) : Prop :=
  t_name t = st_name s /\ t_timestamp t = now /\ t_tags t = t_tags base /\
  t_override_count t = None /\ t_override_sum t = None /\
  match st_type s with
  | TGauge => t_persist t = true /\ t_value t = (if st_signed s then VSum (scaled s) else VSet (scaled s))
  | TCounter => t_persist t = false /\ t_value t = VSum (scaled s)
  | TTimer | THistogram =>
      t_persist t = false /\
      match first_mask (sc_masks cfg) (st_name s) with
      | None => t_value t = VQuant (c_insert (c_new (sc_error cfg)) (scaled s)) (scaled s)
      | Some bs => exists h, h_new (fsort bs) = Some h /\ t_value t = VHist (h_insert h (scaled s))
      end
  end.

(** a configuration with which no point can fail to be built *)
Definition cfg_ok (cfg : statsd_cfg) : Prop :=
  fleb fone (sc_error cfg) = false /\
  Forall (fun m => existsb is_nan (snd m) = false /\ exists h, h_new (fsort (snd m)) = Some h) (sc_masks cfg).

(** ** Graphite *)
(** the words are complete triples; one point per triple *)
Inductive triples (base : telemetry) : list string -> list telemetry -> Prop :=
| triples_nil : triples base [] []
| triples_cons name vtext ttext v ts t ws rest :
    pf vtext = Some v -> pi ttext = Some ts ->
    t_name t = name -> t_value t = VSet v -> t_timestamp t = ts ->
    t_persist t = t_persist base -> t_tags t = t_tags base ->
    t_override_count t = None -> t_override_sum t = None ->
    triples base ws rest ->
    triples base (name :: vtext :: ttext :: ws) (t :: rest).

(** the points of the accepted packets *)
Definition accepted_points {P} (parse : P -> list telemetry -> pout) (ps : list P) : list telemetry :=
  flat_map (fun p => match parse p [] with PReturn true r => r | _ => [] end) ps.
Definition accepted {P} (parse : P -> list telemetry -> pout) (p : P) : bool :=
  match parse p [] with PReturn b _ => b | PPanicked => false end.
(** a rejected packet leaves nothing behind *)
Definition rejects_clean {P} (parse : P -> list telemetry -> pout) (p : P) : Prop :=
  forall r, parse p [] = PReturn false r -> r = [].
End Spec.
