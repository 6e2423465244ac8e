(** Model of crates/modelardb_compression/src/types.rs, compression.rs (one time series) and of
    [grid] and [sum] in models/mod.rs: compressed segments with a model and residuals. *)
From Coq Require Import ZArith List Bool.
From Verif Require Import Model.Base Model.Bits Model.Timestamps Model.Float Model.ErrorBound
  Model.MacaqueV Model.Pmc Model.Swing.
Import ListNotations.
Open Scope Z_scope.

(** Ids of the model types, models/mod.rs l.36-38. *)
Definition pmc_mean_id : Z := 0.
Definition swing_id : Z := 1.
Definition macaque_v_id : Z := 2.

(** [COMPRESSED_METADATA_SIZE_IN_BYTES], modelardb_types/src/schemas.rs l.57-64: one i8, two
    timestamps and three f32. *)
Definition compressed_metadata_size_in_bytes : Z := 29.

(** [RESIDUAL_VALUES_MAX_LENGTH], compression.rs l.38. *)
Definition residual_values_max_length : nat := 255.

(** One row of the record batch built by [CompressedSegmentBatchBuilder], types.rs l.411-517. The
    column with the actual error is always NaN and omitted; the columns with tags and the field
    are constants and are modelled in Model/Multivariate.v. *)
Record segment : Type := Segment {
  sg_model_type_id : Z;
  sg_start_time : Z;
  sg_end_time : Z;
  sg_timestamps : list Z;
  sg_min : f32;
  sg_max : f32;
  sg_values : list Z;
  sg_residuals : list Z
}.

(** [f32::to_le_bytes] and [f32::from_le_bytes]. *)
Definition to_le_bytes (x : f32) : list Z :=
  let z := to_bits x in [z mod 256; z / 256 mod 256; z / 65536 mod 256; z / 16777216 mod 256].
Definition from_le_bytes (bytes : list Z) : outcome f32 :=
  match bytes with
  | [a; b; c; d] => Ok (from_bits (a + 256 * b + 65536 * c + 16777216 * d))
  | _ => Panic
  end.

(** [PMCMean::bytes_per_value], pmc_mean.rs l.83-86, and [Swing::bytes_per_value],
    swing.rs l.238-241. *)
Definition pmc_bytes_per_value (length : nat) : f32 :=
  f32_div (f32_of_Z compressed_metadata_size_in_bytes) (f32_of_Z (Z.of_nat length)).
Definition swing_bytes_per_value (length : nat) : f32 :=
  f32_div (f32_add (f32_of_Z compressed_metadata_size_in_bytes) (f32_of_Z 1))
    (f32_of_Z (Z.of_nat length)).

(** [CompressedSegmentBuilder], types.rs l.147-169. *)
Record segment_builder : Type := SegmentBuilder {
  sb_model_type_id : Z;
  sb_start_index : nat;
  sb_end_index : nat;
  sb_min : f32;
  sb_max : f32;
  sb_values : list Z;
  sb_model_last_value : f32;
  sb_bytes_per_value : f32
}.

(** [ModelBuilder], types.rs l.40-57. *)
Record model_builder (P : platform) : Type := ModelBuilder {
  mb_start_index : nat;
  mb_pmc : pmc;
  mb_pmc_could_fit_all : bool;
  mb_swing : swing (f64_num P);
  mb_swing_could_fit_all : bool
}.
Arguments ModelBuilder {P}.
Arguments mb_start_index {P}.
Arguments mb_pmc {P}.
Arguments mb_pmc_could_fit_all {P}.
Arguments mb_swing {P}.
Arguments mb_swing_could_fit_all {P}.

(** [ModelBuilder::new], types.rs l.62-70. *)
Definition model_builder_new (P : platform) (start_index : nat) (eb : error_bound)
  : model_builder P :=
  ModelBuilder start_index (pmc_new eb) true (swing_new (f64_num P) eb) true.

(** [ModelBuilder::try_to_update_models], types.rs l.75-82. *)
Definition try_to_update_models (P : platform) (mb : model_builder P) (timestamp : Z) (value : f32)
  : bool * model_builder P :=
  let '(pmc_ok, pmc) :=
    if mb_pmc_could_fit_all mb then pmc_fit_value P (mb_pmc mb) value
    else (false, mb_pmc mb) in
  let '(swing_ok, swing) :=
    if mb_swing_could_fit_all mb then swing_fit_data_point P (mb_swing mb) timestamp value
    else (false, mb_swing mb) in
  (pmc_ok || swing_ok, ModelBuilder (mb_start_index mb) pmc pmc_ok swing swing_ok).

(** [select_pmc_mean], types.rs l.107-122. *)
Definition select_pmc_mean (start_index : nat) (m : pmc) : segment_builder :=
  let value := pmc_model m in
  SegmentBuilder pmc_mean_id start_index (start_index + pmc_length m - 1) value value [] value
    (pmc_bytes_per_value (pmc_length m)).

(** [select_swing], types.rs l.125-148. *)
Definition select_swing (P : platform) (start_index : nat) (m : swing (f64_num P))
  : segment_builder :=
  let '(first_value, last_value) := swing_model P m in
  SegmentBuilder swing_id start_index (start_index + sw_length m - 1)
    (f32_min P first_value last_value) (f32_max P first_value last_value)
    (if f32_lt first_value last_value then [] else [0]) last_value
    (swing_bytes_per_value (sw_length m)).

(** [ModelBuilder::finish], types.rs l.85-104. [min_by] returns the first of equal elements;
    both models accept at least one value, so no comparison is with NaN. *)
Definition model_builder_finish (P : platform) (mb : model_builder P) : segment_builder :=
  if f32_lt (swing_bytes_per_value (sw_length (mb_swing mb)))
            (pmc_bytes_per_value (pmc_length (mb_pmc mb)))
  then select_swing P (mb_start_index mb) (mb_swing mb)
  else select_pmc_mean (mb_start_index mb) (mb_pmc mb).

(** [fit_next_model], compression.rs l.280-301; [points] are the data points from
    [current_start_index]. *)
Fixpoint fit_loop (P : platform) (mb : model_builder P) (points : list (Z * f32))
  : model_builder P :=
  match points with
  | [] => mb
  | (t, v) :: points =>
      let '(can_fit_more, mb) := try_to_update_models P mb t v in
      if can_fit_more then fit_loop P mb points else mb
  end.
Definition fit_next_model (P : platform) (current_start_index : nat) (eb : error_bound)
  (points : list (Z * f32)) : segment_builder :=
  model_builder_finish P
    (fit_loop P (model_builder_new P current_start_index eb) (skipn current_start_index points)).

(** [encode_values_for_pmc_mean], types.rs l.283-303. *)
Definition encode_values_for_pmc_mean (min max residuals_min residuals_max : f32) : list Z :=
  if f32_lt residuals_min min then
    if f32_le residuals_max max then [1] else to_le_bytes min
  else [].

(** [decode_values_for_pmc_mean], types.rs l.307-321. *)
Definition decode_values_for_pmc_mean (min max : f32) (values : list Z) : outcome f32 :=
  match values with
  | [] => Ok min
  | [_] => Ok max
  | _ => from_le_bytes values
  end.

(** [encode_values_for_swing], types.rs l.325-372. *)
Definition encode_values_for_swing (min max : f32) (min_is_first : bool)
  (residuals_min residuals_max : f32) : list Z :=
  if f32_lt residuals_min min && f32_lt max residuals_max then
    if min_is_first then to_le_bytes min ++ to_le_bytes max else to_le_bytes max ++ to_le_bytes min
  else if f32_lt residuals_min min then
    (if min_is_first then 0 else 1) :: to_le_bytes min
  else if f32_lt max residuals_max then
    (if min_is_first then 2 else 3) :: to_le_bytes max
  else if negb min_is_first then [0] else [].

(** [decode_values_for_swing], types.rs l.376-407. *)
Definition decode_values_for_swing (min max : f32) (values : list Z) : outcome (f32 * f32) :=
  match values with
  | [] => Ok (min, max)
  | [_] => Ok (max, min)
  | [flag; a; b; c; d] =>
      let? value := from_le_bytes [a; b; c; d] in
      if flag =? 0 then Ok (value, max)
      else if flag =? 1 then Ok (max, value)
      else if flag =? 2 then Ok (min, value)
      else if flag =? 3 then Ok (value, min)
      else Panic
  | [a; b; c; d; e; f; g; h] =>
      let? first := from_le_bytes [a; b; c; d] in
      let? last := from_le_bytes [e; f; g; h] in
      Ok (first, last)
  | _ => Panic
  end.

(** [values[start..=end]]. *)
Definition slice {A : Type} (l : list A) (start end_ : nat) : list A :=
  firstn (S end_ - start) (skipn start l).

(** [CompressedSegmentBuilder::finish], types.rs l.197-267. The indices are always in bounds. *)
Definition segment_finish (P : platform) (sb : segment_builder) (eb : error_bound)
  (residuals_end_index : nat) (ts : list Z) (vs : list f32) : segment :=
  let start_time := nth (sb_start_index sb) ts 0 in
  let end_time := nth residuals_end_index ts 0 in
  let timestamps :=
    compress_residual_timestamps (slice ts (sb_start_index sb) residuals_end_index) in
  if Nat.ltb (sb_end_index sb) residuals_end_index then
    let residuals_start_index := S (sb_end_index sb) in
    let '(residuals, residuals_min, residuals_max) :=
      macaque_v_model (compress_values_without_first P (macaque_v_new eb)
        (slice vs residuals_start_index residuals_end_index) (sb_model_last_value sb)) in
    let values :=
      if sb_model_type_id sb =? pmc_mean_id
      then encode_values_for_pmc_mean (sb_min sb) (sb_max sb) residuals_min residuals_max
      else encode_values_for_swing (sb_min sb) (sb_max sb)
             (match sb_values sb with [] => true | _ => false end) residuals_min residuals_max in
    Segment (sb_model_type_id sb) start_time end_time timestamps
      (f32_min P (sb_min sb) residuals_min) (f32_max P (sb_max sb) residuals_max) values
      (residuals ++ [u8 (u8 (Z.of_nat (residuals_end_index - residuals_start_index)) + 1)])
  else
    Segment (sb_model_type_id sb) start_time end_time timestamps
      (sb_min sb) (sb_max sb) (sb_values sb) [].

(** [compress_and_store_residuals_in_a_separate_segment], compression.rs l.367-400. *)
Definition residual_segment (P : platform) (eb : error_bound) (start_index end_index : nat)
  (ts : list Z) (vs : list f32) : segment :=
  let '(values, min, max) :=
    macaque_v_model (compress_values P (macaque_v_new eb) (slice vs start_index end_index)) in
  Segment macaque_v_id (nth start_index ts 0) (nth end_index ts 0)
    (compress_residual_timestamps (slice ts start_index end_index)) min max values [].

(** [store_compressed_segments_with_model_and_or_residuals], compression.rs l.310-362: the
    segments that are appended. *)
Definition store_segments (P : platform) (eb : error_bound) (maybe_model : option segment_builder)
  (residuals_end_index : nat) (ts : list Z) (vs : list f32) : list segment :=
  match maybe_model with
  | Some model =>
      if Nat.leb (residuals_end_index - sb_end_index model) residual_values_max_length then
        [segment_finish P model eb residuals_end_index ts vs]
      else
        [segment_finish P model eb (sb_end_index model) ts vs;
         residual_segment P eb (S (sb_end_index model)) residuals_end_index ts vs]
  | None => [residual_segment P eb 0 residuals_end_index ts vs]
  end.

(** [VALUE_SIZE_IN_BYTES as f32], models/mod.rs l.47. *)
Definition value_size_in_bytes_f32 : f32 := f32_of_Z 4.

(** The loop and the final call in [try_compress_univariate_time_series], compression.rs
    l.226-274. [fuel] is larger than the number of iterations. *)
Fixpoint compress_loop (fuel : nat) (P : platform) (eb : error_bound) (ts : list Z) (vs : list f32)
  (current_start_index : nat) (previous_model : option segment_builder) : outcome (list segment) :=
  match fuel with
  | O => Panic
  | S fuel =>
      if Nat.ltb current_start_index (length ts) then
        let model := fit_next_model P current_start_index eb (combine ts vs) in
        if f32_le (sb_bytes_per_value model) value_size_in_bytes_f32 then
          let stored :=
            if Nat.ltb 0 current_start_index
            then store_segments P eb previous_model (current_start_index - 1) ts vs
            else [] in
          let? rest := compress_loop fuel P eb ts vs (S (sb_end_index model)) (Some model) in
          Ok (stored ++ rest)
        else compress_loop fuel P eb ts vs (S current_start_index) previous_model
      else Ok (store_segments P eb previous_model (length ts - 1) ts vs)
  end.

(** [try_compress_univariate_time_series], compression.rs l.191-275. *)
Definition compress_univariate (P : platform) (eb : error_bound) (ts : list Z) (vs : list f32)
  : outcome (list segment) :=
  if negb (Nat.eqb (length ts) (length vs)) then Err
  else match ts with
       | [] => Ok []
       | _ => compress_loop (S (length ts)) P eb ts vs 0 None
       end.

(** ** Reading segments *)

(** [residuals_length], models/mod.rs l.277-284. *)
Definition residuals_length (residuals : list Z) : nat :=
  match residuals with [] => 0%nat | _ => Z.to_nat (last residuals 0) end.

(** [residuals[..residuals.len() - 1]]. *)
Definition residual_bytes (residuals : list Z) : list Z := removelast residuals.

(** The model in [grid], models/mod.rs l.211-237: the values for [ts], the model's timestamps. *)
Definition model_grid (P : platform) (s : segment) (ts : list Z) : outcome (list f32) :=
  if sg_model_type_id s =? pmc_mean_id then
    let? value := decode_values_for_pmc_mean (sg_min s) (sg_max s) (sg_values s) in
    Ok (pmc_grid value (length ts))
  else if sg_model_type_id s =? swing_id then
    let? (first_value, last_value) := decode_values_for_swing (sg_min s) (sg_max s) (sg_values s) in
    match ts with
    | [] => Panic
    | _ => Ok (swing_grid P (sg_start_time s) (last ts 0) first_value last_value ts)
    end
  else if sg_model_type_id s =? macaque_v_id then macaque_v_grid (sg_values s) (length ts) None
  else Panic.

(** [grid], models/mod.rs l.190-251, for one segment with empty builders. [GridExec] appends the
    segments of a batch to the same builders; the last value before the residuals is always from
    the same segment as a model represents at least one value. *)
Definition grid (P : platform) (s : segment) : outcome (list Z * list f32) :=
  let? ts := decompress_all_timestamps (sg_start_time s) (sg_end_time s) (sg_timestamps s) in
  let n := residuals_length (sg_residuals s) in
  if Nat.ltb (length ts) n then Panic
  else
    let model_ts := firstn (length ts - n) ts in
    let? model_values := model_grid P s model_ts in
    match sg_residuals s with
    | [] => Ok (ts, model_values)
    | _ =>
        match model_values with
        | [] => Panic
        | _ =>
            let? residual_values :=
              macaque_v_grid (residual_bytes (sg_residuals s)) n (Some (last model_values f32_zero)) in
            Ok (ts, model_values ++ residual_values)
        end
    end.

(** [sum], models/mod.rs l.129-184. *)
Definition segment_sum (P : platform) (s : segment) : outcome f32 :=
  let n := residuals_length (sg_residuals s) in
  let? length := len (sg_start_time s) (sg_end_time s) (sg_timestamps s) in
  let model_length := Z.to_nat (length - Z.of_nat n) in
  let? (model_last_value, model_sum) :=
    if sg_model_type_id s =? pmc_mean_id then
      let? value := decode_values_for_pmc_mean (sg_min s) (sg_max s) (sg_values s) in
      Ok (value, pmc_sum_of model_length value)
    else if sg_model_type_id s =? swing_id then
      let? (first_value, last_value) :=
        decode_values_for_swing (sg_min s) (sg_max s) (sg_values s) in
      let? sum := swing_sum P (sg_start_time s) (sg_end_time s) (sg_timestamps s)
                    first_value last_value n in
      Ok (last_value, sum)
    else if sg_model_type_id s =? macaque_v_id then
      let? sum := macaque_v_sum model_length (sg_values s) None in
      Ok (f32_nan, sum)
    else Panic in
  match sg_residuals s with
  | [] => Ok model_sum
  | _ =>
      let? residuals_sum :=
        macaque_v_sum n (residual_bytes (sg_residuals s)) (Some model_last_value) in
      Ok (f32_add model_sum residuals_sum)
  end.
