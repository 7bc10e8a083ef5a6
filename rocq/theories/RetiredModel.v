(** Model of the formulas of _core_nb.py that no function calls any more: the former normalizations of
    correlations and differences, _core_nb.py 1076-1142, and the reader [_g], 1223-1228. *)
From Verif Require Import Base NormModel.
Set Implicit Arguments.

Section Retired.
  Variable K : Fld.
  Notation C := (Cx K).
  Local Infix "+" := (fadd K).
  Local Infix "*" := (fmul K).
  Local Infix "-" := (fsub K).
  Local Notation "2" := (f1 K + f1 K).

  (** _normalize_ccorr_0, _core_nb.py 1076-1078 *)
  Definition _normalize_ccorr_0 (data : K) (count : nat) (bg1 bg2 : C) : fval K :=
    fv_map (fun x => x - (cre bg1 * cre bg2 + cim bg1 * cim bg2)) (over K data count).
  (** _normalize_cdiff_1, 1080-1082 *)
  Definition _normalize_cdiff_1 (data : K) (count : nat) (d : C) : fval K :=
    fv_map (fun x => x - (cre d * cre d + cim d * cim d)) (over K data count).
  (** _normalize_ccorr_2, 1084-1089 *)
  Definition _normalize_ccorr_2 (data : K) (count : nat) (bg1 bg2 m1 m2 : C) : fval K :=
    let tmp := data in
    let tmp := tmp - cre bg1 * cre m2 - cim bg1 * cim m2 in
    let tmp := tmp - cre bg2 * cre m1 - cim bg2 * cim m1 in
    fv_map (fun x => x + cre bg1 * cre bg2 + cim bg1 * cim bg2) (over K tmp count).
  (** _normalize_ccorr_2b, 1091-1096 *)
  Definition _normalize_ccorr_2b (data : K) (count : nat) (m1 m2 : C) : fval K :=
    let tmp := cre m1 * cre m2 + cim m1 * cim m2 in
    fv_bind (over K tmp count) (fun tmp =>
    let tmp := data - tmp in
    over K tmp count).
  (** _normalize_cdiff_3, 1098-1102 *)
  Definition _normalize_cdiff_3 (data : K) (count : nat) (dm m1 m2 : C) : fval K :=
    let ds := csub m2 m1 in
    let tmp := data - 2 * (cre dm * cre ds + cim dm * cim ds) in
    fv_map (fun x => x + (cre dm * cre dm + cim dm * cim dm)) (over K tmp count).
  (** _normalize_ccorr_3, 1104-1118 *)
  Definition _normalize_ccorr_3 (data : K) (count : nat) (bg1 bg2 : C) (sq : K) (m1 m2 : C) : fval K :=
    let tmp := data - half K sq in
    let tmp := tmp + (cre m1 - cre m2) * (cre bg1 - cre bg2) in
    let tmp := tmp + (cim m1 - cim m2) * (cim bg1 - cim bg2) in
    fv_map (fun tmp =>
      let d := cre bg1 - cre bg2 in
      let d2 := d * d in
      let d := cim bg1 - cim bg2 in
      let d2 := d2 + d * d in
      tmp - half K d2) (over K tmp count).
  (** _normalize_ccorr_3b, 1120-1130 *)
  Definition _normalize_ccorr_3b (data : K) (count : nat) (sq : K) (m1 m2 : C) : fval K :=
    let tmp := (cre m1 - cre m2) * (cre m1 - cre m2) in
    let tmp := tmp + (cim m1 - cim m2) * (cim m1 - cim m2) in
    fv_bind (over K (half K tmp) count) (fun tmp =>
    let tmp := data + tmp - half K sq in
    over K tmp count).
  (** _normalize_ccorr_1, 1132-1143 *)
  Definition _normalize_ccorr_1 (data : K) (count : nat) (bg1 bg2 : C) (sq : K) : fval K :=
    let tmp := data - half K sq in
    fv_map (fun tmp =>
      let d := cre bg1 - cre bg2 in
      let d2 := d * d in
      let d := cim bg1 - cim bg2 in
      let d2 := d2 + d * d in
      tmp + half K d2) (over K tmp count).
  (** _g, 1223-1228; there is no check of bounds in compiled code *)
  Definition _g (a : list K) (index : Z) : res K :=
    let index := Z.abs_nat index in
    if (length a <? index)%nat then Ok (f0 K)
    else match nth_error a index with Some x => Ok x | None => Raise OutOfBounds end.
End Retired.
