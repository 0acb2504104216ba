(** * Telemetry, log lines, events: src/metric/{mod,telemetry,logline,event}.rs *)
From Verif Require Import Base.

(** src/metric/telemetry.rs:19-34 *)
Inductive method := MSum | MSet | MSummarize | MHistogram.

Definition method_eqb (a b : method) : bool :=
  match a, b with
  | MSum, MSum | MSet, MSet | MSummarize, MSummarize | MHistogram, MHistogram => true
  | _, _ => false
  end.

(** Upper bound of a histogram bin: [quantiles::histogram::Bound]. *)
Inductive bound := BFinite (x : f64) | BPosInf.

(** The external crate [quantiles] (version 0.7.1), used by telemetry.rs:3-6.
    Its source is not in /repo, so it is an interface: every theorem below holds
    for every implementation that satisfies the four groups of counting laws.
    - [h_new] is [Histogram::new] (None = Err), [h_insert]/[h_merge]/[h_count]/
      [h_sum]/[h_bins] are insert, [+=], count, sum, iter;
    - [c_new]/[c_insert]/[c_merge]/[c_count]/[c_query]/[c_values]/[c_cma] are the
      methods new, insert, [+=], count, query, into_vec, cma of [CKMS].
    Laws: inserting counts one sample, merging adds the counts, a new structure
    is empty, the bin counts of a histogram add up to its count. *)
Class QLib : Type := {
  hist : Type;
  ckms : Type;
  h_new : list f64 -> option hist;
  h_insert : hist -> f64 -> hist;
  h_merge : hist -> hist -> hist;
  h_count : hist -> N;
  h_sum : hist -> option f64;
  h_bins : hist -> list (bound * N);
  c_new : f64 -> ckms;
  c_insert : ckms -> f64 -> ckms;
  c_merge : ckms -> ckms -> ckms;
  c_count : ckms -> N;
  c_query : ckms -> f64 -> option (N * f64);
  c_values : ckms -> list f64;
  c_cma : ckms -> option f64;
  h_new_count : forall bs h, h_new bs = Some h -> h_count h = 0%N;
  h_insert_count : forall h x, h_count (h_insert h x) = (h_count h + 1)%N;
  h_merge_count : forall a b, h_count (h_merge a b) = (h_count a + h_count b)%N;
  c_new_count : forall e, c_count (c_new e) = 0%N;
  c_insert_count : forall c x, c_count (c_insert c x) = (c_count c + 1)%N;
  c_merge_count : forall a b, c_count (c_merge a b) = (c_count a + c_count b)%N;
  h_bins_total : forall h, sumN (map snd (h_bins h)) = h_count h;
}.

(** src/metric/mod.rs:20.  A tag map; list order = iteration order. *)
Definition tagmap := list (string * string).
(** HashMap::get, insert, remove on tag maps *)
Definition tm_get (k : string) (m : tagmap) : option string := alookup seqb k m.
Definition tm_insert (k v : string) (m : tagmap) : tagmap := ainsert seqb k v m.
Definition tm_remove (k : string) (m : tagmap) : tagmap := aremove seqb k m.
(** the invariant every Rust map has by construction *)
Definition tm_ok (m : tagmap) : Prop := NoDup (map fst m).
Definition otm_ok (m : option tagmap) : Prop := match m with Some m => tm_ok m | None => True end.

Section Telemetry.
Context `{Q : QLib}.

(** src/metric/telemetry.rs:38-47 *)
Inductive value :=
| VSet (x : f64)
| VSum (x : f64)
| VHist (h : hist)
| VQuant (c : ckms) (sum : f64).

(** src/metric/telemetry.rs:66-79.  Simplification: [value] is an
    [Option<Value>] in the code that is [None] only inside [add_assign]; here it
    is a [value]. *)
Record telemetry := mkTelemetry {
  t_name : string;
  t_value : value;
  t_persist : bool;
  t_tags : option tagmap;
  t_timestamp : Z;
  t_override_count : option N;
  t_override_sum : option f64;
}.

(** impl Add for Value, src/metric/telemetry.rs:94-137 *)
Definition value_add (lhs rhs : value) : value :=
  match lhs with
  | VSet x | VSum x =>
      match rhs with
      | VSet y => VSet y
      | VSum y => VSum (fadd x y)
      | VHist y => VHist (h_insert y x)
      | VQuant c s => VQuant (c_insert c x) (fadd s x)
      end
  | VHist x =>
      match rhs with
      | VSet y => VSet y
      | VSum y => VSum (fadd (match h_sum x with Some s => s | None => fzero end) y)
      | VHist y => VHist (h_merge x y)
      | VQuant c s => VQuant c s
      end
  | VQuant c s =>
      match rhs with
      | VSet y => VSet y
      | VSum y => VSum (fadd s y)
      | VHist y => VHist (fold_left h_insert (c_values c) y)
      | VQuant c' s' => VQuant (c_merge c c') (fadd s s')
      end
  end.

(** Value::sum, set, query, count, mean, kind: src/metric/telemetry.rs:152-211 *)
Definition value_sum (v : value) : option f64 := match v with VSum x => Some x | _ => None end.
Definition value_set (v : value) : option f64 := match v with VSet x => Some x | _ => None end.
Definition value_query (v : value) (p : f64) : option f64 :=
  match v with VQuant c _ => option_map snd (c_query c p) | _ => None end.
Definition value_count (v : value) : N :=
  match v with VSet _ | VSum _ => 1%N | VHist h => h_count h | VQuant c _ => c_count c end.
Definition value_kind (v : value) : method :=
  match v with VSet _ => MSet | VSum _ => MSum | VHist _ => MHistogram | VQuant _ _ => MSummarize end.
(** Value::bins, 173-178 *)
Definition value_bins (v : value) : option (list (bound * N)) :=
  match v with VHist h => Some (h_bins h) | _ => None end.

(** Telemetry::kind 575-581, sum 708, set 717, query 726, bins 735 *)
Definition t_kind (t : telemetry) : method := value_kind (t_value t).
Definition t_sum (t : telemetry) := value_sum (t_value t).
Definition t_set (t : telemetry) := value_set (t_value t).
Definition t_query (t : telemetry) := value_query (t_value t).
Definition t_bins (t : telemetry) := value_bins (t_value t).

(** Telemetry::samples_sum 744-756 *)
Definition t_samples_sum (t : telemetry) : option f64 :=
  match t_value t with
  | VSet _ | VSum _ => None
  | VHist h => h_sum h
  | VQuant _ s => match t_override_sum t with Some o => Some o | None => Some s end
  end.

(** Telemetry::count 759-767 *)
Definition t_count (t : telemetry) : N :=
  match t_override_count t with Some c => c | None => value_count (t_value t) end.

(** Telemetry::samples 797-809 *)
Definition t_samples (t : telemetry) : list f64 :=
  match t_value t with
  | VSet x | VSum x => [x]
  | VQuant c _ => c_values c
  | VHist h => map (fun b => fofZ (Z.of_N (snd b))) (h_bins h)
  end.

(** Telemetry::is_zeroed 831-838 *)
Definition t_is_zeroed (t : telemetry) : bool :=
  match t_value t with
  | VSet x | VSum x => feqb x fzero
  | VHist h => N.eqb (h_count h) 0
  | VQuant c _ => N.eqb (c_count c) 0
  end.

(** AddAssign for Telemetry, 222-231 *)
Definition t_add (l r : telemetry) : telemetry :=
  mkTelemetry (t_name l) (value_add (t_value l) (t_value r)) (t_persist r)
              (t_tags l) (t_timestamp l) (t_override_count l) (t_override_sum l).

(** Telemetry::timestamp (setter) 920-923 *)
Definition t_set_timestamp (ts : Z) (t : telemetry) : telemetry :=
  mkTelemetry (t_name t) (t_value t) (t_persist t) (t_tags t) ts
              (t_override_count t) (t_override_sum t).

Definition t_set_tags (tg : option tagmap) (t : telemetry) : telemetry :=
  mkTelemetry (t_name t) (t_value t) (t_persist t) tg (t_timestamp t)
              (t_override_count t) (t_override_sum t).

Definition t_set_value (v : value) (t : telemetry) : telemetry :=
  mkTelemetry (t_name t) v (t_persist t) (t_tags t) (t_timestamp t)
              (t_override_count t) (t_override_sum t).

(** ** The builder: SoftTelemetry, 49-61 *)
Record soft := mkSoft {
  s_name : option string;
  s_initial : option f64;
  s_thawed : option value;
  s_kind : option method;
  s_error : option f64;
  s_bounds : option (list f64);
  s_timestamp : option Z;
  s_tags : option tagmap;
  s_persist : option bool;
  s_count : option N;
  s_sum : option f64;
}.

(** Telemetry::new 531-545 *)
Definition soft_new : soft := mkSoft None None None None None None None None None None None.

(** Builder setters 263-364.  [bounds] sorts its argument with an unwrapped
    partial comparison (332-336): see [b_bounds]. *)
Definition b_sample_sum x s := mkSoft (s_name s) (s_initial s) (s_thawed s) (s_kind s) (s_error s)
  (s_bounds s) (s_timestamp s) (s_tags s) (s_persist s) (s_count s) (Some x).
Definition b_count c s := mkSoft (s_name s) (s_initial s) (s_thawed s) (s_kind s) (s_error s)
  (s_bounds s) (s_timestamp s) (s_tags s) (s_persist s) (Some c) (s_sum s).
Definition b_name n s := mkSoft (Some n) (s_initial s) (s_thawed s) (s_kind s) (s_error s)
  (s_bounds s) (s_timestamp s) (s_tags s) (s_persist s) (s_count s) (s_sum s).
(** value 291-295 also clears the thawed value *)
Definition b_value x s := mkSoft (s_name s) (Some x) None (s_kind s) (s_error s)
  (s_bounds s) (s_timestamp s) (s_tags s) (s_persist s) (s_count s) (s_sum s).
Definition b_kind k s := mkSoft (s_name s) (s_initial s) (s_thawed s) (Some k) (s_error s)
  (s_bounds s) (s_timestamp s) (s_tags s) (s_persist s) (s_count s) (s_sum s).
Definition b_error e s := mkSoft (s_name s) (s_initial s) (s_thawed s) (s_kind s) (Some e)
  (s_bounds s) (s_timestamp s) (s_tags s) (s_persist s) (s_count s) (s_sum s).
Definition b_clear_error s := mkSoft (s_name s) (s_initial s) (s_thawed s) (s_kind s) None
  (s_bounds s) (s_timestamp s) (s_tags s) (s_persist s) (s_count s) (s_sum s).
Definition b_timestamp ts s := mkSoft (s_name s) (s_initial s) (s_thawed s) (s_kind s) (s_error s)
  (s_bounds s) (Some ts) (s_tags s) (s_persist s) (s_count s) (s_sum s).
Definition b_tags tg s := mkSoft (s_name s) (s_initial s) (s_thawed s) (s_kind s) (s_error s)
  (s_bounds s) (s_timestamp s) (Some tg) (s_persist s) (s_count s) (s_sum s).
Definition b_persist p s := mkSoft (s_name s) (s_initial s) (s_thawed s) (s_kind s) (s_error s)
  (s_bounds s) (s_timestamp s) (s_tags s) (Some p) (s_count s) (s_sum s).

(** Insertion sort of floats; [sort_by(|a, b| a.partial_cmp(b).unwrap())] of
    332-336 on input without NaN (with two or more elements a NaN panics in the
    code, [b_bounds] then returns None). *)
Fixpoint finsert (x : f64) (l : list f64) : list f64 :=
  match l with
  | [] => [x]
  | y :: r => if fleb x y then x :: l else y :: finsert x r
  end.
Definition fsort (l : list f64) : list f64 := fold_right finsert [] l.
Definition is_nan (x : f64) : bool := match x with S754_nan => true | _ => false end.
Definition b_bounds (bs : list f64) (s : soft) : option soft :=
  if andb (existsb is_nan bs) (2 <=? List.length bs) then None
  else Some (mkSoft (s_name s) (s_initial s) (s_thawed s) (s_kind s) (s_error s)
    (Some (fsort bs)) (s_timestamp s) (s_tags s) (s_persist s) (s_count s) (s_sum s)).

(** Error, 502-510 (NoInitialValue is never produced) *)
Inductive terror := CannotHaveTwoValues | CannotSetBounds | CannotSetError | NoName | NoValue
                  | SummarizeErrorTooLarge.

Inductive hres := HOk (t : telemetry) | HErr (e : terror) | HPanic.

(** harden, 366-498; [now] is time::now(). [Histogram::new(bounds).unwrap()]
    panics when the library refuses the bounds. *)
Definition harden (now : Z) (s : soft) : hres :=
  match s_initial s, s_thawed s with
  | Some _, Some _ => HErr CannotHaveTwoValues
  | None, None => HErr NoValue
  | _, _ =>
    match s_name s with
    | None => HErr NoName
    | Some name =>
      let kind := match s_kind s with Some k => k | None => MSet end in
      let ts := match s_timestamp s with Some t => t | None => now end in
      let persist := match s_persist s with Some p => p | None => false end in
      match kind with
      | MSummarize =>
          match s_bounds s with
          | Some _ => HErr CannotSetBounds
          | None =>
              let too_large := match s_error s with Some e => fleb fone e | None => false end in
              if too_large then HErr SummarizeErrorTooLarge
              else
                let error := match s_error s with Some e => e | None => fratio 1 1000 end in
                let v := match s_thawed s, s_initial s with
                         | Some tv, _ => tv
                         | None, Some iv => VQuant (c_insert (c_new error) iv) iv
                         | None, None => VSet fzero (* excluded above *)
                         end in
                HOk (mkTelemetry name v persist (s_tags s) ts (s_count s) (s_sum s))
          end
      | MHistogram =>
          match s_error s with
          | Some _ => HErr CannotSetError
          | None =>
              match s_thawed s, s_initial s with
              | Some tv, _ => HOk (mkTelemetry name tv persist (s_tags s) ts None None)
              | None, Some iv =>
                  let bounds := match s_bounds s with
                                | Some b => b
                                | None => [fofZ 1; fofZ 10; fofZ 100; fofZ 1000]
                                end in
                  match h_new bounds with
                  | Some h => HOk (mkTelemetry name (VHist (h_insert h iv)) persist (s_tags s) ts None None)
                  | None => HPanic
                  end
              | None, None => HErr NoValue (* excluded above *)
              end
          end
      | MSet | MSum =>
          match s_error s with
          | Some _ => HErr CannotSetError
          | None =>
              match s_bounds s with
              | Some _ => HErr CannotSetBounds
              | None =>
                  let v := match s_thawed s, s_initial s with
                           | Some tv, _ => tv
                           | None, Some iv => match kind with MSum => VSum iv | _ => VSet iv end
                           | None, None => VSet fzero (* excluded above *)
                           end in
                  HOk (mkTelemetry name v persist (s_tags s) ts None None)
              end
          end
      end
    end
  end.

(** thaw 553-568 *)
Definition thaw (t : telemetry) : soft :=
  mkSoft (Some (t_name t)) None (Some (t_value t)) (Some (t_kind t)) None None
         (Some (t_timestamp t)) (t_tags t) (Some (t_persist t)) None None.

(** Telemetry::insert 682-705; None = assertion failure *)
Definition t_insert (x : f64) (t : telemetry) : option telemetry :=
  match t_override_sum t, t_override_count t with
  | None, None =>
      Some (t_set_value
        (match t_value t with
         | VSet _ => VSet x
         | VSum y => VSum (fadd y x)
         | VHist h => VHist (h_insert h x)
         | VQuant c s => VQuant (c_insert c x) (fadd s x)
         end) t)
  | _, _ => None
  end.

(** ** Tags *)

(** TagIter: src/metric/mod.rs:43-85, constructed by tags (telemetry.rs:588-601,
    logline.rs:153-166).  [tag_iter own defaults] is the list of pairs the
    iterator yields.  Single: the defaults.  Double: own pairs, each key added to
    [seen_keys], then the defaults whose key is newly inserted in [seen_keys]. *)
Fixpoint tag_iter_defaults (seen : list string) (d : tagmap) : tagmap :=
  match d with
  | [] => []
  | (k, v) :: r =>
      if existsb (seqb k) seen then tag_iter_defaults seen r
      else (k, v) :: tag_iter_defaults (k :: seen) r
  end.
Fixpoint tag_iter_double (seen : list string) (own d : tagmap) : tagmap :=
  match own with
  | (k, v) :: r => (k, v) :: tag_iter_double (k :: seen) r d
  | [] => tag_iter_defaults seen d
  end.
Definition tag_iter (own : option tagmap) (defaults : tagmap) : tagmap :=
  match own with
  | None => defaults
  | Some o => tag_iter_double [] o defaults
  end.

(** get_from_tags: telemetry.rs:604-617, logline.rs:133-146 *)
Definition get_from_tags (key : string) (own : option tagmap) (defaults : tagmap) : option string :=
  match own with
  | Some tags => match tm_get key tags with Some v => Some v | None => tm_get key defaults end
  | None => tm_get key defaults
  end.

(** insert_tag: telemetry.rs:623-635, logline.rs:79-91; (new tags, previous value) *)
Definition insert_tag (k v : string) (own : option tagmap) : option tagmap * option string :=
  match own with
  | Some tags => (Some (tm_insert k v tags), tm_get k tags)
  | None => (Some (tm_insert k v []), None)
  end.

(** remove_tag: telemetry.rs:641-647, logline.rs:97-103 *)
Definition remove_tag (k : string) (own : option tagmap) : option tagmap * option string :=
  match own with
  | Some tags => (Some (tm_remove k tags), tm_get k tags)
  | None => (None, None)
  end.

(** overlay_tag: telemetry.rs:654-660, logline.rs:109-115 *)
Definition overlay_tag (k v : string) (own : option tagmap) : option tagmap :=
  fst (insert_tag k v own).

(** overlay_tags_from_map: telemetry.rs:667-676, logline.rs:121-130 *)
Definition overlay_tags (m : tagmap) (own : option tagmap) : option tagmap :=
  match own with
  | Some tags => Some (fold_left (fun acc kv => tm_insert (fst kv) (snd kv) acc) m tags)
  | None => match m with [] => None | _ => Some m end
  end.

(** cmp_tagmap: src/metric/mod.rs:26-40; lexicographic comparison of the pairs in
    iteration order when the sizes agree, size otherwise, Equal if one is absent *)
Fixpoint pairs_cmp (l r : tagmap) : comparison :=
  match l, r with
  | [], [] => Eq
  | [], _ => Lt
  | _, [] => Gt
  | (k1, v1) :: l', (k2, v2) :: r' =>
      match scmp k1 k2 with
      | Eq => match scmp v1 v2 with Eq => pairs_cmp l' r' | c => c end
      | c => c
      end
  end.
Definition cmp_tagmap (l r : option tagmap) : comparison :=
  match l, r with
  | Some l, Some r =>
      if Nat.eqb (List.length l) (List.length r) then pairs_cmp l r
      else Nat.compare (List.length l) (List.length r)
  | _, _ => Eq
  end.

(** PartialOrd for Telemetry: telemetry.rs:233-245 *)
Definition t_cmp (a b : telemetry) : comparison :=
  match scmp (t_name a) (t_name b) with
  | Eq => match Z.compare (t_timestamp a) (t_timestamp b) with
          | Eq => cmp_tagmap (t_tags a) (t_tags b)
          | c => c
          end
  | c => c
  end.

(** The time bin of a timestamp: [self.timestamp / span], telemetry.rs:820-821.
    Rust's division truncates towards zero: [Z.quot]. *)
Definition tbin (span ts : Z) : Z := Z.quot ts span.

(** Telemetry::within, telemetry.rs:816-828, for [span <> 0] (span 0 panics) *)
Definition within (span : Z) (a b : telemetry) : comparison :=
  match scmp (t_name a) (t_name b) with
  | Eq => match cmp_tagmap (t_tags a) (t_tags b) with
          | Eq => Z.compare (tbin span (t_timestamp a)) (tbin span (t_timestamp b))
          | c => c
          end
  | c => c
  end.

(** The data fed to the hasher by name_tag_hash (telemetry.rs:863-873): the name,
    then key and value of every tag in iteration order. [Telemetry::hash]
    (844-855) adds the kind. The hash functions themselves are parameters. *)
Definition flat_tags (o : option tagmap) : list string :=
  match o with
  | Some m => flat_map (fun kv => [fst kv; snd kv]) m
  | None => []
  end.
Definition series_key (t : telemetry) : list string := t_name t :: flat_tags (t_tags t).

(** ** Log lines: src/metric/logline.rs:7-19 *)
Record logline := mkLog {
  l_time : Z;
  l_path : string;
  l_value : string;
  l_fields : tagmap;
  l_tags : option tagmap;
}.

(** ** Events: src/metric/event.rs:7-54 *)
Inductive encoding := EncRaw | EncAvro | EncJSON.
Record raw := mkRaw {
  r_order_by : N;
  r_encoding : encoding;
  r_bytes : list N;
  r_metadata : option (list (list N * list N));
  r_conn : option N;  (** connection id (a Uuid) *)
}.
Inductive event :=
| ETelemetry (t : telemetry)
| ELog (l : logline)
| ETimerFlush (idx : N)
| EShutdown
| ERaw (r : raw).

(** Event::is_timer_flush, event.rs:58-63 *)
Definition is_timer_flush (e : event) : bool := match e with ETimerFlush _ => true | _ => false end.
(** Event::timestamp, event.rs:68-74 *)
Definition e_timestamp (e : event) : option Z :=
  match e with
  | ETelemetry t => Some (t_timestamp t)
  | ELog l => Some (l_time l)
  | ETimerFlush _ | EShutdown | ERaw _ => None
  end.

End Telemetry.

(** A concrete [QLib] for examples: histograms keep bounds, counts and sum;
    a CKMS keeps every sample in insertion order. *)
Record xhist := mkXHist { xh_bounds : list f64; xh_counts : list N; xh_sum : option f64 }.
Fixpoint xh_bump (bs : list f64) (cs : list N) (x : f64) : list N :=
  match bs, cs with
  | b :: bs', c :: cs' => if fleb x b then (c + 1)%N :: cs' else c :: xh_bump bs' cs' x
  | _, c :: cs' => (c + 1)%N :: cs'
  | _, [] => [1%N]
  end.
Fixpoint nzip (a b : list N) : list N :=
  match a, b with
  | x :: a', y :: b' => (x + y)%N :: nzip a' b'
  | [], b => b
  | a, [] => a
  end.
Definition xh_osum (a b : option f64) : option f64 :=
  match a, b with Some x, Some y => Some (fadd x y) | Some x, None => Some x | None, b => b end.
Fixpoint xh_pair (bs : list f64) (cs : list N) : list (bound * N) :=
  match bs, cs with
  | b :: bs', c :: cs' => (BFinite b, c) :: xh_pair bs' cs'
  | _, [] => []
  | [], c :: cs' => (BPosInf, c) :: xh_pair [] cs'
  end.
Definition xh_new (bs : list f64) : option xhist :=
  match bs with [] => None | _ => Some (mkXHist bs (repeat 0%N (S (List.length bs))) None) end.
