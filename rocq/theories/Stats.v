(** The statistics per aggregate type and their snapshots:
    pkg/projection/aggregate_type_stats.go, pkg/projection/disk_snapshot_store.go and
    the start of the API, pkg/rangedbapi/api.go. *)
From Coq Require Import ZArith.
From Verif Require Import Base LogSpec Core Json JsonText RecordIo Subscription.
Open Scope string_scope.
Open Scope N_scope.

(** aggregate_type_stats.go:12-16 [aggregateTypeStatusData].  [s_counts]: the map, kept
    in order of its keys (simplification: Go's map has no order, but both its readers,
    SortedAggregateTypes and encoding/json, sort the keys); [None]: a nil map.
    Counters are not wrapped (2^64 events). *)
Record stats := mk_stats {
  s_counts : option (list (string * N));
  s_latest : N;
  s_total  : N
}.

(** aggregate_type_stats.go:25-31 [NewAggregateTypeStats]. *)
Definition new_stats : stats := mk_stats (Some []) 0 0.

(** Go's m[k] on a map[string]uint64: zero if absent, also from a nil map. *)
Definition in_map (t : string) (m : list (string * N)) : N :=
  match find (fun p => String.eqb (fst p) t) m with Some p => snd p | None => 0 end.

(** aggregate_type_stats.go:34-40 [Accept], one call under its lock; [None]: the panic
    of an assignment to an entry in a nil map. *)
Definition accept (d : stats) (r : record) : option stats :=
  match s_counts d with
  | None => None
  | Some m => Some (mk_stats (Some (put (r_atype r) (in_map (r_atype r) m + 1) m)) (r_gsn r) (s_total d + 1))
  end.
Fixpoint accept_all (d : stats) (rs : list record) : option stats :=
  match rs with
  | [] => Some d
  | r :: rest => match accept d r with Some d1 => accept_all d1 rest | None => None end
  end.

(** aggregate_type_stats.go:43-52 [SortedAggregateTypes]. *)
Definition sorted_types (d : stats) : list string :=
  match s_counts d with Some m => map fst m | None => [] end.
(** aggregate_type_stats.go:55-59 [TotalEventsByAggregateType]. *)
Definition events_of_type (t : string) (d : stats) : N :=
  match s_counts d with Some m => in_map t m | None => 0 end.
(** aggregate_type_stats.go:62-64 [TotalEvents] (simplification: it reads without the
    lock; here every read sees the state between two calls of Accept). *)
Definition total_events (d : stats) : N := s_total d.
(** aggregate_type_stats.go:67-71 [LatestGlobalSequenceNumber]. *)
Definition latest_number (d : stats) : N := s_latest d.

(** * Snapshots *)

Definition n_counts : string := "totalEventsByAggregateType".
Definition n_latest : string := "latestGlobalSequenceNumber".
Definition n_total : string := "totalEvents".

Definition number_of (n : N) : json := JNum (Int (Z.of_N n)).
Definition map_json (m : list (string * N)) : json := JObj (map (fun p => (fst p, number_of (snd p))) m).

(** aggregate_type_stats.go:79-84 [SaveSnapshot]: Encode writes the struct and a newline. *)
Definition stats_json (d : stats) : json :=
  JObj [(n_counts, match s_counts d with Some m => map_json m | None => JNull end);
        (n_latest, number_of (s_latest d)); (n_total, number_of (s_total d))].
Definition newline : string := String (ascii_of_N 10) "".
Definition save_snapshot (d : stats) : string := print (stats_json d) ++ newline.

(** encoding/json decoding an object into a map[string]uint64: entries are added to
    the map that is there; a null value is zero. *)
Fixpoint fill_map (m : list (string * N)) (ms : list (string * json)) : option (list (string * N)) :=
  match ms with
  | [] => Some m
  | (k, j) :: rest =>
      match set_field (TUint 0) j with
      | Some (TUint n) => fill_map (put k n m) rest
      | _ => None
      end
  end.
Definition set_map (m : option (list (string * N))) (j : json) : option (option (list (string * N))) :=
  match j with
  | JNull => Some None
  | JObj ms => match fill_map (match m with Some l => l | None => [] end) ms with Some l => Some (Some l) | None => None end
  | _ => None
  end.
Definition set_number (n : N) (j : json) : option N :=
  match set_field (TUint n) j with Some (TUint n') => Some n' | _ => None end.

(** decode.go [decodeState.object]: the field a member name means. *)
Definition stat_field (k : string) : option string :=
  field_named k [(n_counts, TBool false); (n_latest, TUint 0); (n_total, TUint 0)].

(** encoding/json decoding an object into aggregateTypeStatusData; [None]: an error
    (the decoder goes on after a type error and returns it at the end). *)
Fixpoint fill_stats (d : stats) (ms : list (string * json)) : option stats :=
  match ms with
  | [] => Some d
  | (k, j) :: rest =>
      match stat_field k with
      | None => fill_stats d rest
      | Some name =>
          if String.eqb name n_counts then
            match set_map (s_counts d) j with Some m => fill_stats (mk_stats m (s_latest d) (s_total d)) rest | None => None end
          else if String.eqb name n_latest then
            match set_number (s_latest d) j with Some n => fill_stats (mk_stats (s_counts d) n (s_total d)) rest | None => None end
          else
            match set_number (s_total d) j with Some n => fill_stats (mk_stats (s_counts d) (s_latest d) n) rest | None => None end
      end
  end.

(** aggregate_type_stats.go:87-100 [LoadFromSnapshot]: the new data; [None]: an error,
    the projection keeps its data.  Only the first value of the file is read. *)
Definition load_snapshot (text : string) : option stats :=
  match read_value text with
  | Some (JNull, _) => Some (mk_stats None 0 0)
  | Some (JObj ms, _) => fill_stats (mk_stats None 0 0) ms
  | _ => None
  end.

(** * The start of the API *)

(** api.go:109-127 [initProjections] up to StartFrom, with disk_snapshot_store.go:20-33
    [Load]: the projection and the number its subscription to all events starts from.
    [file]: the content of the snapshot file, [None] if it cannot be opened; an error
    is only logged (115-117). *)
Definition init_projections (file : option string) : stats * N :=
  let d := match file with
           | Some text => match load_snapshot text with Some d => d | None => new_stats end
           | None => new_stats
           end in
  (d, if 0 <? total_events d then succ64 (latest_number d) else 0).

(** api.go:124-126: the subscription, to all events, with a buffer of 10. *)
Definition stats_sub : list query * nat := ([None], 10%nat).
