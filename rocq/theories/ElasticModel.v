(** * Model of the elasticsearch sink, src/sink/elasticsearch.rs.
    Not modelled: the HTTP client and its errors' texts, the error counters by
    kind of error (elasticsearch.rs:230-258, 268-328), JSON text.
    Uuid::new_v4 is an input of each delivery. *)
From Verif Require Import Base TelemetryModel.
Open Scope string_scope. Open Scope list_scope. Open Scope nat_scope.

(** Line, elasticsearch.rs:104-108; [el_attempts] is a u8, which wraps in release builds *)
Record eline := mkEline { el_attempts : N; el_uuid : N; el_line : logline }.
(** Elasticsearch, elasticsearch.rs:113-123, without the connection parameters;
    [es_delivered], [es_failed], [es_requests], [es_len] are the counters
    ELASTIC_RECORDS_TOTAL_DELIVERED, _TOTAL_FAILED, _DELIVERY and ELASTIC_INTERNAL_BUFFER_LEN *)
Record es := mkEs {
  es_buffer : list eline;
  es_limit : N;
  es_prefix : option string;
  es_type : string;
  es_tags : tagmap;
  es_delivered : N;
  es_failed : N;
  es_requests : N;
  es_len : nat;
}.
(** init, elasticsearch.rs:161-173 *)
Definition es_init (limit : N) (prefix : option string) (ty : string) (tags : tagmap) : es :=
  mkEs [] limit prefix ty tags 0 0 0 0.

(** one action of the bulk request: index name, type, id and document *)
Record action := mkAction { a_index : string; a_type : string; a_id : N; a_doc : list (string * string) }.

(** the server's answer to one request: no response at all, an error for the whole
    request, or one answer per item; an id that is no UUID is [None] *)
Inductive es_answer := ESNoResponse | ESError | ESItems (items : list (option N * bool)).

(** valve_state, elasticsearch.rs:350-356 *)
Definition es_valve_open (e : es) : bool := negb (10000 <? N.of_nat (List.length (es_buffer e)))%N.

(** deliver_line, elasticsearch.rs:341-348 *)
Definition es_deliver (e : es) (u : N) (l : logline) : es :=
  mkEs (es_buffer e ++ [mkEline 0 u l]) (es_limit e) (es_prefix e) (es_type e) (es_tags e)
       (es_delivered e) (es_failed e) (es_requests e) (es_len e).

Section Elastic.
(** the date part and the full rendering of a time; [None]: out of chrono's range, which panics
    (NaiveDateTime::from_timestamp), elasticsearch.rs:359-374 *)
Variable render : Z -> option (string * string).
(** Uuid::hyphenated().to_string() *)
Variable uuid_str : N -> string.

(** idx, elasticsearch.rs:366-374 *)
Definition es_index (prefix : option string) (day : string) : string :=
  match prefix with Some p => (p ++ "-" ++ day)%string | None => day end.

Definition doc_insert (d : list (string * string)) (kv : string * string) := ainsert seqb (fst kv) (snd kv) d.
(** one turn of the loop of bulk_body, elasticsearch.rs:129-155 *)
Definition es_action (e : es) (m : eline) : option action :=
  match render (l_time (el_line m)) with
  | None => None
  | Some (day, full) =>
      let l := el_line m in
      let base := [("uuid", uuid_str (el_uuid m)); ("path", l_path l); ("payload", l_value l); ("timestamp", full)] in
      let doc := fold_left doc_insert (l_fields l) (fold_left doc_insert (tag_iter (l_tags l) (es_tags e)) base) in
      Some (mkAction (es_index (es_prefix e) day) (es_type e) (el_uuid m) doc)
  end.
(** bulk_body, elasticsearch.rs:126-157 *)
Fixpoint es_body (e : es) (ms : list eline) : option (list action) :=
  match ms with
  | [] => Some []
  | m :: r => match es_action e m, es_body e r with Some a, Some b => Some (a :: b) | _, _ => None end
  end.

(** the search for the line of an answer, elasticsearch.rs:200-208 and 218-226:
    the position of the first line with the id, the length if there is none *)
Fixpoint es_find (u : N) (ms : list eline) : nat :=
  match ms with [] => 0 | m :: r => if N.eqb (el_uuid m) u then 0 else S (es_find u r) end.

Definition es_set_buffer (b : list eline) (d f : N) (e : es) : es :=
  mkEs b (es_limit e) (es_prefix e) (es_type e) (es_tags e) (es_delivered e + d) (es_failed e + f) (es_requests e) (es_len e).
(** u8 addition in a release build *)
Definition succ8 (n : N) : N := ((n + 1) mod 256)%N.
Definition bump (m : eline) : eline := mkEline (succ8 (el_attempts m)) (el_uuid m) (el_line m).
(** one item, elasticsearch.rs:196-258; [None]: panic (id is no UUID, or is not in the buffer) *)
Definition es_item (e : es) (it : option N * bool) : option es :=
  match fst it with
  | None => None
  | Some u =>
      let i := es_find u (es_buffer e) in
      if Nat.ltb i (List.length (es_buffer e)) then
        if snd it then Some (es_set_buffer (remove_at i (es_buffer e)) 1 0 e)
        else
          let b := update_at i bump (es_buffer e) in
          match nth_error b i with
          | None => None
          | Some m => Some (es_set_buffer (if (es_limit e <? el_attempts m)%N then remove_at i b else b) 0 1 e)
          end
      else None
  end.
Fixpoint es_items (e : es) (its : list (option N * bool)) : option es :=
  match its with
  | [] => Some e
  | it :: r => match es_item e it with Some e' => es_items e' r | None => None end
  end.

(** flush, elasticsearch.rs:180-335: the request sent, if any, and the new state; [None]: panic *)
Definition es_flush (e : es) (ans : es_answer) : option (es * option (list action)) :=
  match es_buffer e with
  | [] => Some (e, None)
  | _ =>
      match es_body e (es_buffer e) with
      | None => None
      | Some body =>
          match ans with
          | ESNoResponse => Some (e, Some body)
          | ESError => Some (mkEs (es_buffer e) (es_limit e) (es_prefix e) (es_type e) (es_tags e) (es_delivered e) (es_failed e)
                                  (es_requests e) (List.length (es_buffer e)), Some body)
          | ESItems its =>
              match es_items (mkEs (es_buffer e) (es_limit e) (es_prefix e) (es_type e) (es_tags e) (es_delivered e) (es_failed e)
                                   (es_requests e + 1) (List.length (es_buffer e))) its with
              | Some e' => Some (e', Some body)
              | None => None
              end
          end
      end
  end.

(** histories: each delivery with its fresh id, each flush with the server's answer, which is
    used only if a request is made; the log has the requests with their answers *)
Inductive es_op := ESDeliver (u : N) (l : logline) | ESFlush (a : es_answer).
Fixpoint es_run (e : es) (ops : list es_op) : option (es * list (list action * es_answer)) :=
  match ops with
  | [] => Some (e, [])
  | ESDeliver u l :: r => es_run (es_deliver e u l) r
  | ESFlush a :: r =>
      match es_flush e a with
      | Some (e', req) =>
          match es_run e' r with
          | Some (e'', reqs) => Some (e'', match req with Some b => (b, a) :: reqs | None => reqs end)
          | None => None
          end
      | None => None
      end
  end.
End Elastic.
