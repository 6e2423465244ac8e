(** C04: with a lossless error bound MacaqueV restores every value bit for bit. Equality of [f32]
    is equality of bit patterns, including signed zeros and NaN payloads. *)
From Coq Require Import ZArith List Bool Lia.
From Verif Require Import Model.Base Model.Float Model.ErrorBound Model.MacaqueV.
From Verif Require Import Proofs.MacaqueVProofs.
Import ListNotations.
Open Scope Z_scope.

(** Both ways a segment uses MacaqueV: on its own (the first value is stored in full) and for
    residuals (the first value is stored relative to the last value of the model). *)
Theorem c04_macaque_v_lossless :
  forall (P : platform) (values : list f32),
    values <> [] ->
    (let bytes := fst (fst (macaque_v_model
                    (compress_values P (macaque_v_new Lossless) values))) in
     macaque_v_grid bytes (length values) None = Ok values) /\
    (forall last : f32,
       let bytes := fst (fst (macaque_v_model
                      (compress_values_without_first P (macaque_v_new Lossless) values last))) in
       macaque_v_grid bytes (length values) (Some last) = Ok values).
Proof. exact macaque_v_lossless. Qed.

(** Bit patterns: 1.5, 1.5, -0.0, a signalling NaN, infinity, the smallest subnormal. *)
Definition c04_bits : list Z := [1069547520; 1069547520; 2147483648; 2139095041; 2139095040; 1].
Definition c04_platform : platform := Platform (fun _ _ => true) (fun _ _ => false) (fun _ _ => true) (fun _ _ => false)
    (fun _ => 0).

Example c04_example :
  match macaque_v_grid (fst (fst (macaque_v_model (compress_values c04_platform
          (macaque_v_new Lossless) (map from_bits c04_bits))))) 6 None with
  | Ok values => map to_bits values = c04_bits
  | _ => False
  end.
Proof. vm_compute. reflexivity. Qed.

Print Assumptions c04_macaque_v_lossless.
