(** C52 - Reading a time series table returns the rows and columns that are requested. *)
From Coq Require Import ZArith Bool Ascii String List.
From Verif Require Import Model.Base Model.Sql Spec.StatementSpec Model.Reads Spec.ReadsSpec
  Proofs.ReadsProofs Proofs.ReadsExample.
Import ListNotations.
Open Scope string_scope.
Open Scope list_scope.

(** Exactly the rows with the tags and in the interval are returned, with the columns that are
    requested. The query is generated as text and read again, for any number of columns and tags, in
    any order. Missing: names that are not in lower case, texts with quotes, and timestamps in a column
    with another name, see below. *)
Theorem c52_rows_partial : forall reserved timestamp_of aggregated x r db t,
  holds db x t -> proper t -> simple reserved x -> fits timestamp_of (schema t) r ->
  written reserved (schema t) r ->
  Forall (fun c => snd c = Plain) (columns r) -> group_by r = [] ->
  exists kept result, read reserved timestamp_of aggregated x r db = Ok result
    /\ chosen (wanted timestamp_of (schema t) r) (rows t) kept
    /\ Forall2 (fun row out => Forall2 (fun c v => value_in (schema t) c row v)
                                 (asked (schema t) r) out) kept result.
Proof. exact read_rows. Qed.
Print Assumptions c52_rows_partial.

(** Aggregates are computed from exactly these rows, for the groups that are requested. *)
Theorem c52_aggregates_partial : forall reserved timestamp_of aggregated x r db t,
  holds db x t -> proper t -> simple reserved x -> fits timestamp_of (schema t) r ->
  written reserved (schema t) r ->
  (exists c a, In (c, a) (columns r) /\ a <> Plain) \/ group_by r <> [] ->
  exists kept, chosen (wanted timestamp_of (schema t) r) (rows t) kept
    /\ read reserved timestamp_of aggregated x r db
       = aggregated (schema t) (asked_aggregates (schema t) r) (group_by r) kept.
Proof. exact read_aggregates. Qed.
Print Assumptions c52_aggregates_partial.

(** A value of a tag with a quote is read as a part of the query: rows with other tags are
    returned. *)
Theorem c52_quote_refuted : forall reserved timestamp_of aggregated,
  not_reserved reserved ["WIND"; "TIMESTAMP"; "PARK"; "SPEED"] ->
  let r := only [("park", "south' OR 'a' = 'a")] in
  Forall (fun row => ~ wanted timestamp_of (schema wind) r row) (rows wind)
  /\ fits timestamp_of (schema wind) r
  /\ read reserved timestamp_of aggregated "wind" r parks = Ok (rows wind).
Proof. exact quote_returns_all. Qed.
Print Assumptions c52_quote_refuted.

(** If each quote in the values of the tags is doubled in the request, exactly the rows with these tags
    are returned, for any values. Missing: names that are not in lower case and timestamps in a column
    with another name. *)
Theorem c52_doubled_partial : forall reserved timestamp_of aggregated x r db t,
  holds db x t -> proper t -> simple reserved x -> fits timestamp_of (schema t) r ->
  written_doubled reserved (schema t) r ->
  Forall (fun c => snd c = Plain) (columns r) -> group_by r = [] ->
  exists kept result, read reserved timestamp_of aggregated x (with_quotes r) db = Ok result
    /\ chosen (wanted timestamp_of (schema t) r) (rows t) kept
    /\ Forall2 (fun row out => Forall2 (fun c v => value_in (schema t) c row v)
                                 (asked (schema t) r) out) kept result.
Proof. exact read_rows_doubled. Qed.
Print Assumptions c52_doubled_partial.

(** Aggregates are then computed from exactly these rows. *)
Theorem c52_doubled_aggregates_partial : forall reserved timestamp_of aggregated x r db t,
  holds db x t -> proper t -> simple reserved x -> fits timestamp_of (schema t) r ->
  written_doubled reserved (schema t) r ->
  (exists c a, In (c, a) (columns r) /\ a <> Plain) \/ group_by r <> [] ->
  exists kept, chosen (wanted timestamp_of (schema t) r) (rows t) kept
    /\ read reserved timestamp_of aggregated x (with_quotes r) db
       = aggregated (schema t) (asked_aggregates (schema t) r) (group_by r) kept.
Proof. exact read_aggregates_doubled. Qed.
Print Assumptions c52_doubled_aggregates_partial.

(** Rows whose tags contain a quote cannot be read by these tags as they are. *)
Theorem c52_quoted_tag_refuted : forall reserved timestamp_of aggregated,
  not_reserved reserved ["WIND"; "TIMESTAMP"; "PARK"; "SPEED"] ->
  let r := only [("park", "o'hara")] in
  (exists row, In row (rows wind) /\ wanted timestamp_of (schema wind) r row)
  /\ fits timestamp_of (schema wind) r
  /\ read reserved timestamp_of aggregated "wind" r parks = Err.
Proof. exact quote_not_found. Qed.
Print Assumptions c52_quoted_tag_refuted.

(** No table whose column of timestamps has another name than "timestamp" can be read by an
    interval. *)
Theorem c52_timestamp_refuted : forall reserved timestamp_of aggregated x r db t,
  holds db x t -> schema t <> [] -> simple reserved x -> written reserved (schema t) r ->
  simple reserved "timestamp" ->
  (forall c a, In (c, a) (columns r) -> In c (map fst (schema t))) ->
  (forall c, In c (group_by r) -> In c (map fst (schema t))) ->
  (forall c v, In (c, v) (tags r) -> In c (map fst (schema t))) ->
  ~ In "timestamp" (map fst (schema t)) -> start_time r <> None \/ end_time r <> None ->
  read reserved timestamp_of aggregated x r db = Err.
Proof. exact no_timestamp. Qed.
Print Assumptions c52_timestamp_refuted.

(** A table with a column whose name has an upper case letter cannot be read, not even entirely. *)
Theorem c52_case_refuted : forall reserved timestamp_of aggregated,
  not_reserved reserved ["WIND"; "TIMESTAMP"; "SPEED"] ->
  proper mixed /\ holds [("wind", mixed)] "wind" mixed
  /\ fits timestamp_of (schema mixed) (only [])
  /\ read reserved timestamp_of aggregated "wind" (only []) [("wind", mixed)] = Err.
Proof. exact upper_not_read. Qed.
Print Assumptions c52_case_refuted.

Example c52_example :
  proper wind /\ holds parks "wind" wind /\ simple words "wind"
  /\ (forall r, r = north \/ r = north_count -> fits seconds (schema wind) r /\ written words (schema wind) r)
  /\ Forall (fun c => snd c = Plain) (columns north) /\ group_by north = []
  /\ generate_sql "wind" (map fst (schema wind)) north
     = "SELECT speed, timestamp FROM wind WHERE park = 'north' AND '1970-01-01T00:02:00' <= timestamp "
  /\ generate_sql "wind" (map fst (schema wind)) north_count
     = "SELECT park, COUNT(speed) FROM wind WHERE park = 'north' AND '1970-01-01T00:02:00' <= timestamp GROUP BY park"
  /\ read words seconds (fun _ _ _ _ => Err) "wind" north parks = Ok [[Field 9; Time 300]]%Z
  /\ read words seconds (fun _ items groups rows => Ok rows) "wind" north_count parks
     = Ok [[Time 300; Tag "north"; Field 9]]%Z.
Proof. exact wind_example. Qed.

(** A table whose timestamps have another name. *)
Example c52_timestamp_example :
  holds [("wind", other)] "wind" other /\ simple words "wind"
  /\ written words (schema other) (Request [] [] (Some "1970-01-01T00:02:00") None [])
  /\ simple words "timestamp" /\ ~ In "timestamp" (map fst (schema other))
  /\ read words seconds (fun _ _ _ _ => Err) "wind" (only []) [("wind", other)] = Ok [[Time 100; Field 7]]%Z.
Proof. exact other_example. Qed.

(** Tags with quotes that are doubled. *)
Example c52_doubled_example :
  proper wind /\ holds parks "wind" wind /\ simple words "wind"
  /\ (forall r, r = only [("park", "o'hara")] \/ r = hara_count ->
       fits seconds (schema wind) r /\ written_doubled words (schema wind) r)
  /\ with_quotes (only [("park", "o'hara")]) = only [("park", "o''hara")]
  /\ read words seconds (fun _ _ _ _ => Err) "wind" (with_quotes (only [("park", "o'hara")])) parks
     = Ok [[Time 200; Tag "o'hara"; Field 8]]%Z
  /\ In ("speed", Count) (columns hara_count)
  /\ read words seconds (fun _ items groups rows => Ok rows) "wind" (with_quotes hara_count) parks
     = Ok [[Time 200; Tag "o'hara"; Field 8]]%Z.
Proof. exact hara_example. Qed.
