(** * The routing graph: src/matrix.rs and the wiring done by main. *)
From Verif Require Import Base.
Open Scope string_scope. Open Scope list_scope. Open Scope nat_scope.

(** ** src/matrix.rs *)
Section Matrix.
Context {M : Type}.

(** AdjacencyMap and Adjacency, src/matrix.rs:8-15 *)
Definition amap := list (string * option M).
Definition adjacency := list (string * amap).

(** add_asymmetric_edge, src/matrix.rs:38-48 *)
Definition add_asymmetric_edge (from to : string) (metadata : option M) (a : adjacency) : adjacency :=
  let m := match alookup seqb from a with Some m => m | None => [] end in
  ainsert seqb from (ainsert seqb to metadata m) a.

(** add_edges, src/matrix.rs:51-63 *)
Fixpoint add_edges (from : string) (tos : list string) (metadata : option M) (a : adjacency) : adjacency :=
  match tos with
  | [] => a
  | to :: r => add_edges from r metadata (add_asymmetric_edge to from metadata (add_asymmetric_edge from to metadata a))
  end.

(** num_edges, src/matrix.rs:66-72 *)
Definition num_edges (id : string) (a : adjacency) : nat :=
  match alookup seqb id a with Some m => List.length m | None => 0 end.

(** contains_node, src/matrix.rs:75-77 *)
Definition contains_node (id : string) (a : adjacency) : bool := amem seqb id a.

(** filter_nodes, src/matrix.rs:80-90, with the predicate all callers use:
    no metadata.  None is the panic of indexing with an absent key. *)
Definition filter_nodes (id : string) (a : adjacency) : option (list string) :=
  match alookup seqb id a with
  | Some m => Some (map fst (filter (fun kv => match snd kv with None => true | Some _ => false end) m))
  | None => None
  end.

(** pop, src/matrix.rs:98-100 *)
Definition pop (id : string) (a : adjacency) : option amap * adjacency :=
  (alookup seqb id a, aremove seqb id a).

(** pop_nodes, src/matrix.rs:104-110 *)
Definition pop_nodes (id : string) (a : adjacency) : list string * adjacency :=
  match pop id a with
  | (Some m, a') => (map fst m, a')
  | (None, a') => ([], a')
  end.

(** pop_metadata, src/matrix.rs:114-124 *)
Definition pop_metadata (id : string) (a : adjacency) : list M * adjacency :=
  match pop id a with
  | (Some m, a') => (flat_map (fun kv => match snd kv with Some v => [v] | None => [] end) m, a')
  | (None, a') => ([], a')
  end.
End Matrix.
Arguments amap : clear implicits. Arguments adjacency : clear implicits.

(** ** src/bin/cernan.rs, main *)

(** What main reads of the parsed configuration: the ids (config_path) of the
    enabled sinks, in the order in which main visits them; id and forwards of the
    filters; of the native sources; and of the other sources (internal, statsd,
    graphite, avro, files), in the order of main.  For hash maps the order is some
    iteration order. *)
Record config := mkConfig {
  g_sinks : list string;
  g_filters : list (string * list string);
  g_natives : list (string * list string);
  g_sources : list (string * list string);
}.

(** How main goes on: process::exit, a panic, or a value. *)
Inductive outcome (A : Type) := Going (a : A) | Exit (code : nat) | Panicked.
Arguments Going {A}. Arguments Exit {A}. Arguments Panicked {A}.
Definition bind {A B} (o : outcome A) (f : A -> outcome B) : outcome B :=
  match o with Going a => f a | Exit c => Exit c | Panicked => Panicked end.
Notation "'go!' x <- o ; f" := (bind o (fun x => f)) (at level 200, x pattern, o at level 100, f at level 200).

(** The state of main while it wires.  A sender is named by the id of the queue it
    feeds; a queue is named by the id of its owner. *)
Record wiring := mkWiring {
  w_senders : list (string * string);              (** senders *)
  w_receivers : list (string * string);            (** receivers *)
  w_topology : list (string * list string);        (** config_topology *)
  w_adj : adjacency string;                        (** adjacency_matrix *)
  w_flush : list string;                           (** flush_sends; a set *)
  w_sinks : list (string * list string);           (** started sinks: id, sources *)
  w_filters : list (string * (list string * list string)); (** started filters: id, sources, sends *)
  w_sources : list (string * list string);         (** started sources: id, sends *)
}.
Definition wiring0 : wiring := mkWiring [] [] [] [] [] [] [] [].

(** one sink, src/bin/cernan.rs:148-250: a queue and an entry in the topology *)
Definition declare_sink (w : wiring) (id : string) : wiring :=
  mkWiring (ainsert seqb id id (w_senders w)) (ainsert seqb id id (w_receivers w)) (ainsert seqb id [] (w_topology w))
    (w_adj w) (w_flush w) (w_sinks w) (w_filters w) (w_sources w).
(** one filter, src/bin/cernan.rs:252-342: a queue, an entry, edges both ways *)
Definition declare_filter (w : wiring) (c : string * list string) : wiring :=
  let '(id, forwards) := c in
  mkWiring (ainsert seqb id id (w_senders w)) (ainsert seqb id id (w_receivers w)) (ainsert seqb id forwards (w_topology w))
    (add_edges id forwards None (w_adj w)) (w_flush w) (w_sinks w) (w_filters w) (w_sources w).
(** one native source, src/bin/cernan.rs:345-353: edges, no entry in the topology *)
Definition declare_native (w : wiring) (c : string * list string) : wiring :=
  let '(id, forwards) := c in
  mkWiring (w_senders w) (w_receivers w) (w_topology w) (add_edges id forwards None (w_adj w))
    (w_flush w) (w_sinks w) (w_filters w) (w_sources w).
(** any other source, src/bin/cernan.rs:354-405 *)
Definition declare_source (w : wiring) (c : string * list string) : wiring :=
  let '(id, forwards) := c in
  mkWiring (w_senders w) (w_receivers w) (ainsert seqb id forwards (w_topology w)) (add_edges id forwards None (w_adj w))
    (w_flush w) (w_sinks w) (w_filters w) (w_sources w).
Definition declare (g : config) : wiring :=
  fold_left declare_source (g_sources g) (fold_left declare_native (g_natives g)
    (fold_left declare_filter (g_filters g) (fold_left declare_sink (g_sinks g) wiring0))).

(** the validation, src/bin/cernan.rs:409-422 *)
Definition validate (w : wiring) : outcome wiring :=
  if forallb (fun kf => forallb (fun f => amem seqb f (w_topology w)) (snd kf)) (w_topology w) then Going w else Exit 1.

(** HashSet::insert *)
Definition set_add (x : string) (s : list string) : list string := if existsb (seqb x) s then s else s ++ [x].

(** populate_forwards, src/bin/cernan.rs:29-59; [top] says whether
    top_level_forwards is Some *)
Fixpoint populate_forwards (top : bool) (forwards : list string) (path : string) (senders : list (string * string))
         (flush : list string) (a : adjacency string) : outcome (list string * adjacency string) :=
  match forwards with
  | [] => Going (flush, a)
  | fwd :: r =>
      let flush' := if top then set_add fwd flush else flush in
      match alookup seqb fwd senders with
      | Some snd => populate_forwards top r path senders flush' (add_asymmetric_edge path fwd (Some snd) a)
      | None => Exit 0
      end
  end.

(** start one sink, src/bin/cernan.rs:426-500 *)
Definition start_sink (w : wiring) (id : string) : outcome wiring :=
  match alookup seqb id (w_receivers w) with
  | None => Panicked
  | Some _ =>
      let '(sources, a) := pop_nodes id (w_adj w) in
      Going (mkWiring (w_senders w) (aremove seqb id (w_receivers w)) (w_topology w) a (w_flush w)
        (ainsert seqb id sources (w_sinks w)) (w_filters w) (w_sources w))
  end.
(** start one filter, src/bin/cernan.rs:504-637 *)
Definition start_filter (w : wiring) (c : string * list string) : outcome wiring :=
  let '(id, forwards) := c in
  match alookup seqb id (w_receivers w) with
  | None => Panicked
  | Some _ =>
      go! (_, a) <- populate_forwards false forwards id (w_senders w) [] (w_adj w);
      match filter_nodes id a with
      | None => Panicked
      | Some sources =>
          let '(sends, a') := pop_metadata id a in
          Going (mkWiring (w_senders w) (aremove seqb id (w_receivers w)) (w_topology w) a' (w_flush w)
            (w_sinks w) (ainsert seqb id (sources, sends) (w_filters w)) (w_sources w))
      end
  end.
(** start one source, src/bin/cernan.rs:641-754 *)
Definition start_source (w : wiring) (c : string * list string) : outcome wiring :=
  let '(id, forwards) := c in
  go! (flush, a) <- populate_forwards true forwards id (w_senders w) (w_flush w) (w_adj w);
  let '(sends, a') := pop_metadata id a in
  Going (mkWiring (w_senders w) (w_receivers w) (w_topology w) a' flush
    (w_sinks w) (w_filters w) (ainsert seqb id sends (w_sources w))).
Fixpoint each {A} (f : wiring -> A -> outcome wiring) (l : list A) (w : wiring) : outcome wiring :=
  match l with
  | [] => Going w
  | x :: r => go! w' <- f w x; each f r w'
  end.
(** the flush channels, src/bin/cernan.rs:758-772 *)
Fixpoint flush_channels (senders : list (string * string)) (flush : list string) : outcome (list string) :=
  match flush with
  | [] => Going []
  | d :: r => match alookup seqb d senders with
              | Some snd => go! l <- flush_channels senders r; Going (snd :: l)
              | None => Exit 0
              end
  end.

(** what runs in the end *)
Record started := mkStarted {
  t_sinks : list (string * list string);
  t_filters : list (string * (list string * list string));
  t_sources : list (string * list string);
  t_timer : list string;
}.
(** main up to the point where everything runs, src/bin/cernan.rs:75-787 (without
    logging, arguments, signals, the clock thread and the contents of the configs) *)
Definition wire (g : config) : outcome started :=
  go! w <- validate (declare g);
  go! w <- each start_sink (g_sinks g) w;
  go! w <- each start_filter (g_filters g) w;
  go! w <- each start_source (g_natives g) w;
  go! w <- each start_source (g_sources g) w;
  go! l <- flush_channels (w_senders w) (w_flush w);
  Going (mkStarted (w_sinks w) (w_filters w) (w_sources w) l).
