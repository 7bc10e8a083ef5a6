(** Model of cddm/norm.py and of the normalization formulas of cddm/_core_nb.py,
    for one pixel: the arrays of a data tuple are lists over the delay.
    Simplifications: numbers are exact; an integer count of zero gives the value
    [NonFin] (inf or nan), but division by a variance of zero is left to the field;
    a pair of backgrounds or variances is a pair of numbers and a single one is a
    number (numpy would also unpack an array whose first axis has length two); the
    mask, the out argument and the printing are left out. *)
From Verif Require Import Base.
From Coq Require Import String Ascii.
Open Scope string_scope.
Open Scope nat_scope.
Local Notation length := List.length.
Set Implicit Arguments.

(** A floating point result: a number, or inf/nan. *)
Inductive fval (A : Type) := Fin (a : A) | NonFin.
Arguments Fin {A} a.
Arguments NonFin {A}.
Definition fv_map {A B} (f : A -> B) (x : fval A) : fval B :=
  match x with Fin a => Fin (f a) | NonFin => NonFin end.
Definition fv_bind {A B} (x : fval A) (f : A -> fval B) : fval B :=
  match x with Fin a => f a | NonFin => NonFin end.

Section Formulas.
  Variable K : Fld.
  Notation C := (Cx K).
  Local Notation "0" := (f0 K).
  Local Notation "1" := (f1 K).
  Local Infix "+" := (fadd K).
  Local Infix "*" := (fmul K).
  Local Infix "-" := (fsub K).
  Local Infix "/" := (fdiv K).
  Local Notation "2" := (1 + 1).
  (** 0.5 * x *)
  Definition half (x : K) : K := x / 2.

  (** Division by an integer count: count zero gives inf or nan. *)
  Definition over (x : K) (count : nat) : fval K :=
    match count with O => NonFin | _ => Fin (x / fnat K count) end.
  Definition cover (z : C) (count : nat) : fval C :=
    match count with O => NonFin | _ => Fin (cre z / fnat K count, cim z / fnat K count) end.

  (** _normalize_corr_baseline_real, _core_nb.py 833-835 *)
  Definition _normalize_corr_baseline_real (data : K) (count : nat) (bg1 bg2 : C) : fval K :=
    fv_map (fun x => x - (cre bg1 * cre bg2 + cim bg1 * cim bg2)) (over data count).

  (** _normalize_corr_baseline_complex, _core_nb.py 837-842 *)
  Definition _normalize_corr_baseline_complex (data : C) (count : nat) (bg1 bg2 : C) : fval C :=
    fv_map (fun x => csub x (cmul bg2 (conj bg1))) (cover data count).

  (** _normalize_struct_baseline_real, _core_nb.py 851-862 *)
  Definition _normalize_struct_baseline_real (data : K) (count : nat) (bg1 bg2 : C) (var sq : K) : fval K :=
    fv_map (fun tmp =>
      let d := cre bg1 - cre bg2 in
      let d2 := d * d in
      let d := cim bg1 - cim bg2 in
      let d2 := d2 + d * d in
      tmp + half d2 + var) (over (data - half sq) count).

  (** _normalize_struct_baseline_complex, _core_nb.py 864-888 *)
  Definition _normalize_struct_baseline_complex (data : C) (count : nat) (bg1 bg2 : C) (var sq : K) : fval C :=
    fv_map (fun tmp : C =>
      let d := cre bg1 - cre bg2 in
      let d2 := d * d in
      let d := cim bg1 - cim bg2 in
      let d2 := d2 + d * d in
      let real := half d2 + var in
      let d := cim bg1 + cre bg2 in
      let d2 := d * d in
      let d := cre bg1 - cim bg2 in
      let d2 := d2 + d * d in
      let imag := half d2 + var in
      (cre tmp + real, cim tmp + imag)) (cover (csub data (half sq, half sq)) count).

  (** _normalize_corr_compensated_real, _core_nb.py 895-900 *)
  Definition _normalize_corr_compensated_real (data : K) (count : nat) (m1 m2 : C) : fval K :=
    fv_bind (over (cre m1 * cre m2 + cim m1 * cim m2) count) (fun tmp => over (data - tmp) count).

  (** _normalize_corr_compensated_complex, _core_nb.py 902-910 *)
  Definition _normalize_corr_compensated_complex (data : C) (count : nat) (m1 m2 : C) : fval C :=
    fv_bind (cover (cmul m2 (conj m1)) count) (fun tmp => cover (csub data tmp) count).

  (** _normalize_struct_compensated_real, _core_nb.py 949-957 *)
  Definition _normalize_struct_compensated_real (data : K) (count : nat) (var sq : K) (m1 m2 : C) : fval K :=
    let tmp := (cre m1 - cre m2) * (cre m1 - cre m2) in
    let tmp := tmp + (cim m1 - cim m2) * (cim m1 - cim m2) in
    fv_bind (over (half tmp) count) (fun tmp =>
      fv_map (fun x => x + var) (over (data + tmp - half sq) count)).

  (** _normalize_struct_compensated_complex, _core_nb.py 959-976 *)
  Definition _normalize_struct_compensated_complex (data : C) (count : nat) (var sq : K) (m1 m2 : C) : fval C :=
    let real := (cre m1 - cre m2) * (cre m1 - cre m2) in
    let real := real + (cim m1 - cim m2) * (cim m1 - cim m2) in
    fv_bind (over (half real) count) (fun real =>
    fv_bind (over (real - half sq) count) (fun real =>
    let real := real + var in
    let imag := (cim m1 + cre m2) * (cim m1 + cre m2) in
    let imag := imag + (cre m1 - cim m2) * (cre m1 - cim m2) in
    fv_bind (over (half imag) count) (fun imag =>
    fv_bind (over (imag - half sq) count) (fun imag =>
    let imag := imag + var in
    fv_map (fun x => cadd x (real, imag)) (cover data count))))).

  (** _normalize_corr_subtracted_real, _core_nb.py 985-990 *)
  Definition _normalize_corr_subtracted_real (data : K) (count : nat) (bg1 bg2 m1 m2 : C) : fval K :=
    let tmp := data in
    let tmp := tmp - cre bg1 * cre m2 - cim bg1 * cim m2 in
    let tmp := tmp - cre bg2 * cre m1 - cim bg2 * cim m1 in
    fv_map (fun x => x + cre bg1 * cre bg2 + cim bg1 * cim bg2) (over tmp count).

  (** _normalize_corr_subtracted_complex, _core_nb.py 993-1002 *)
  Definition _normalize_corr_subtracted_complex (data : C) (count : nat) (bg1 bg2 m1 m2 : C) : fval C :=
    let tmp := csub (csub data (cmul (conj bg1) m2)) (cmul (conj m1) bg2) in
    fv_map (fun x => cadd x (cmul (conj bg1) bg2)) (cover tmp count).

  (** _normalize_struct_subtracted_real, _core_nb.py 1012-1026 *)
  Definition _normalize_struct_subtracted_real (data : K) (count : nat) (bg1 bg2 : C) (var sq : K) (m1 m2 : C) : fval K :=
    let tmp := data - half sq in
    let tmp := tmp + (cre m1 - cre m2) * (cre bg1 - cre bg2) in
    let tmp := tmp + (cim m1 - cim m2) * (cim bg1 - cim bg2) in
    fv_map (fun tmp =>
      let d := cre bg1 - cre bg2 in
      let d2 := d * d in
      let d := cim bg1 - cim bg2 in
      let d2 := d2 + d * d in
      tmp - half d2 + var) (over tmp count).

  (** _normalize_struct_subtracted_complex, _core_nb.py 1028-1066 *)
  Definition _normalize_struct_subtracted_complex (data : C) (count : nat) (bg1 bg2 : C) (var sq : K) (m1 m2 : C) : fval C :=
    let tmp := csub data (half sq, half sq) in
    let real := (cre m1 - cre m2) * (cre bg1 - cre bg2) in
    let real := real + (cim m1 - cim m2) * (cim bg1 - cim bg2) in
    let imag := (cim m1 + cre m2) * (cim bg1 + cre bg2) in
    let imag := imag + (cre m1 - cim m2) * (cre bg1 - cim bg2) in
    let tmp := cadd tmp (real, imag) in
    fv_map (fun tmp =>
      let d := cre bg2 - cre bg1 in
      let d2 := d * d in
      let d := cim bg1 - cim bg2 in
      let d2 := d2 + d * d in
      let real := half d2 - var in
      let d := cim bg1 + cre bg2 in
      let d2 := d * d in
      let d := cre bg1 - cim bg2 in
      let d2 := d2 + d * d in
      let imag := half d2 - var in
      csub tmp (real, imag)) (cover tmp count).

  (** _normalize_cdiff_1, _core_nb.py 1079-1081 *)
  Definition _normalize_cdiff_1 (data : K) (count : nat) (d : C) : fval K :=
    fv_map (fun x => x - (cre d * cre d + cim d * cim d)) (over data count).

  (** _normalize_cdiff_3, _core_nb.py 1097-1101 *)
  Definition _normalize_cdiff_3 (data : K) (count : nat) (dm m1 m2 : C) : fval K :=
    let ds := csub m2 m1 in
    let tmp := data - 2 * (cre dm * cre ds + cim dm * cim ds) in
    fv_map (fun x => x + (cre dm * cre dm + cim dm * cim dm)) (over tmp count).

  (** _weighted_sum_real, _core_nb.py 174-176 *)
  Definition _weighted_sum_real (x y weight : K) : K := x * weight + (1 - weight) * y.
  (** _weighted_sum_complex, _core_nb.py 178-182 *)
  Definition _weighted_sum_complex (x y weight : C) : C :=
    (cre x * cre weight + (1 - cre weight) * cre y, cim x * cim weight + (1 - cim weight) * cim y).

  (** weight_from_g, _core_nb.py 1152-1159, for real and for complex g *)
  Definition weight_from_g_real (g delta : K) : K := 2 * g / (g * g + 1 + delta * delta).
  Definition weight_from_g_complex (g : C) (delta : K) : C :=
    let tmp2 := cre g * cre g + cim g * cim g + 1 + delta * delta in
    (2 * cre g / tmp2, 2 * cim g / tmp2).
  (** weight_from_d, _core_nb.py 1187-1189 *)
  Definition weight_from_d_real (d delta : K) : K := weight_from_g_real (1 - d / 2) delta.
  Definition weight_from_d_complex (d : C) (delta : K) : C :=
    weight_from_g_complex (1 - cre d / 2, 0 - cim d / 2) delta.

  (** The formulas used for one kind of data (real or complex correlations): the
      functions normalize_* of _core_nb.py 844-1073 select by the type of the data. *)
  Record NormOps (V : Type) := {
    op_zero : V;
    op_corr_baseline : V -> nat -> C -> C -> fval V;
    op_struct_baseline : V -> nat -> C -> C -> K -> K -> fval V;
    op_corr_compensated : V -> nat -> C -> C -> fval V;
    op_struct_compensated : V -> nat -> K -> K -> C -> C -> fval V;
    op_corr_subtracted : V -> nat -> C -> C -> C -> C -> fval V;
    op_struct_subtracted : V -> nat -> C -> C -> K -> K -> C -> C -> fval V;
    (** the difference formulas exist for real data only *)
    op_cdiff_1 : option (V -> nat -> C -> fval V);
    op_cdiff_3 : option (V -> nat -> C -> C -> C -> fval V);
    op_scal : K -> V -> V;   (** product with a real number *)
    op_shift : V -> K -> V;  (** sum with a real number *)
    op_over : V -> K -> V;   (** quotient by a real number *)
    op_weighted : V -> V -> V -> V;
    op_weight_g : V -> K -> V;
    op_weight_d : V -> K -> V }.

  Definition real_ops : NormOps K := {|
    op_zero := 0;
    op_corr_baseline := _normalize_corr_baseline_real;
    op_struct_baseline := _normalize_struct_baseline_real;
    op_corr_compensated := _normalize_corr_compensated_real;
    op_struct_compensated := _normalize_struct_compensated_real;
    op_corr_subtracted := _normalize_corr_subtracted_real;
    op_struct_subtracted := _normalize_struct_subtracted_real;
    op_cdiff_1 := Some _normalize_cdiff_1;
    op_cdiff_3 := Some _normalize_cdiff_3;
    op_scal := fmul K; op_shift := fadd K; op_over := fdiv K;
    op_weighted := _weighted_sum_real;
    op_weight_g := weight_from_g_real; op_weight_d := weight_from_d_real |}.

  Definition complex_ops : NormOps C := {|
    op_zero := c0 K;
    op_corr_baseline := _normalize_corr_baseline_complex;
    op_struct_baseline := _normalize_struct_baseline_complex;
    op_corr_compensated := _normalize_corr_compensated_complex;
    op_struct_compensated := _normalize_struct_compensated_complex;
    op_corr_subtracted := _normalize_corr_subtracted_complex;
    op_struct_subtracted := _normalize_struct_subtracted_complex;
    op_cdiff_1 := None; op_cdiff_3 := None;
    op_scal := @cscal K; op_shift := fun z x => (cre z + x, cim z);
    op_over := fun z x => (cre z / x, cim z / x);
    op_weighted := _weighted_sum_complex;
    op_weight_g := weight_from_g_complex; op_weight_d := weight_from_d_complex |}.
End Formulas.
Arguments real_ops {K}.
Arguments complex_ops {K}.

(* ------------------------------------------------------------------ *)
(** * Normalization flags *)

(** norm.py 34-53 *)
Definition NORM_NONE := 0%Z.
Definition NORM_BASELINE := 0%Z.
Definition NORM_STANDARD := 1%Z.
Definition NORM_STRUCTURED := 2%Z.
Definition NORM_WEIGHTED := Z.lor NORM_STANDARD NORM_STRUCTURED.
Definition NORM_SUBTRACTED := 4%Z.
Definition NORM_COMPENSATED := 8%Z.

(** norm_flags, norm.py 94-132 *)
Definition norm_flags (structured subtracted weighted compensated : bool) : Z :=
  let standard := negb structured && negb weighted in
  let norm := NORM_NONE in
  let norm := if standard then Z.lor norm NORM_STANDARD else norm in
  let norm := if structured then Z.lor norm NORM_STRUCTURED else norm in
  let norm := if compensated then Z.lor norm NORM_COMPENSATED else norm in
  let norm := if subtracted then Z.lor norm NORM_SUBTRACTED else norm in
  if weighted then Z.lor norm NORM_WEIGHTED else norm.

(** value.split("|"): the pieces between the separators. *)
Fixpoint split_bar (s : string) : list string :=
  match s with
  | EmptyString => [""]
  | String c s' =>
      if (c =? "|")%char then "" :: split_bar s'
      else match split_bar s' with
           | [] => [String c ""]
           | w :: ws => String c w :: ws
           end
  end.

(** str.strip() for ASCII white space *)
Definition is_space (c : ascii) : bool :=
  let n := nat_of_ascii c in (n =? 32) || ((9 <=? n) && (n <=? 13)) || ((28 <=? n) && (n <=? 31)).
Fixpoint lstrip (s : string) : string :=
  match s with
  | EmptyString => ""
  | String c s' => if is_space c then lstrip s' else s
  end.
Fixpoint rstrip (s : string) : string :=
  match s with
  | EmptyString => ""
  | String c s' => match rstrip s' with
                   | EmptyString => if is_space c then "" else String c ""
                   | r => String c r
                   end
  end.
Definition strip (s : string) : string := rstrip (lstrip s).

(** str.upper() for ASCII letters *)
Definition upper_char (c : ascii) : ascii :=
  let n := nat_of_ascii c in
  if (97 <=? n) && (n <=? 122) then ascii_of_nat (n - 32) else c.
Fixpoint upper (s : string) : string :=
  match s with EmptyString => "" | String c s' => String (upper_char c) (upper s') end.

(** getattr(_thismodule, "NORM_" + name): the module constants whose names begin
    with NORM_, norm.py 34-53 *)
Definition norm_attribute (name : string) : option Z :=
  if String.eqb name "NONE" then Some NORM_NONE
  else if String.eqb name "BASELINE" then Some NORM_BASELINE
  else if String.eqb name "STANDARD" then Some NORM_STANDARD
  else if String.eqb name "STRUCTURED" then Some NORM_STRUCTURED
  else if String.eqb name "WEIGHTED" then Some NORM_WEIGHTED
  else if String.eqb name "SUBTRACTED" then Some NORM_SUBTRACTED
  else if String.eqb name "COMPENSATED" then Some NORM_COMPENSATED
  else None.

(** norm_from_string, norm.py 59-92 *)
Definition norm_from_string (value : string) : res Z :=
  let* norm := fold_left (fun r value =>
                  let* norm := r in
                  match norm_attribute (upper (strip value)) with
                  | Some v => Ok (Z.lor norm v)
                  | None => Raise ValueError
                  end) (split_bar value) (Ok 0%Z) in
  Ok (if (norm mod 4 =? 0)%Z then Z.lor norm NORM_STANDARD else norm).

(* ------------------------------------------------------------------ *)
(** * Normalization of one pixel *)

(** The norm argument: a number or a string. *)
Inductive normarg := NInt (z : Z) | NStr (s : string).
(** A background or variance argument: not given, one number, or a pair. *)
Inductive statarg (X : Type) := SNone | SOne (x : X) | STwo (x y : X).
Arguments SNone {X}.
Arguments SOne {X} x.
Arguments STwo {X} x y.

(** Correlation data: a 5-tuple (method corr or fft), a 4-tuple (method diff), or a
    tuple of any other length. *)
Inductive cdata (K : Fld) (V : Type) :=
| DCorr (d : list V) (count : list nat) (sq : option (list K)) (s1 s2 : option (list (Cx K)))
| DDiff (d : list V) (count : list nat) (s1 s2 : option (list (Cx K)))
| DBad.
Arguments DBad {K V}.

Definition in_list (z : Z) (l : list Z) : bool := existsb (Z.eqb z) l.

(** _norm_from_ccorr_data, norm.py 365-396 (the norm given as a number) *)
Definition _norm_from_ccorr_data (has_sq has_s1 : bool) (norm : option Z) : res Z :=
  let '(default_norm, available_norm) :=
    if negb has_s1 then
      if negb has_sq then (NORM_STANDARD, NORM_STANDARD) else (NORM_WEIGHTED, NORM_WEIGHTED)
    else
      if negb has_sq
      then (Z.lor NORM_STANDARD NORM_SUBTRACTED,
            Z.lor (Z.lor NORM_STANDARD NORM_COMPENSATED) NORM_SUBTRACTED)
      else (Z.lor NORM_WEIGHTED NORM_SUBTRACTED,
            Z.lor (Z.lor NORM_WEIGHTED NORM_COMPENSATED) NORM_SUBTRACTED) in
  match norm with
  | None => Ok default_norm
  | Some norm =>
      if negb (in_list norm [1; 2; 3; 5; 6; 7; 9; 10; 11; 13; 14; 15]%Z) then Raise ValueError
      else if (Z.land norm available_norm =? norm)%Z then Ok norm else Raise ValueError
  end.

(** _norm_from_cdiff_data, norm.py 398-419 (the norm given as a number) *)
Definition _norm_from_cdiff_data (has_s1 has_s2 : bool) (norm : option Z) : res Z :=
  let available0 := NORM_STRUCTURED in
  let available1 := Z.lor NORM_STRUCTURED NORM_SUBTRACTED in
  let default_norm := if negb has_s1 || negb has_s2 then available0 else available1 in
  match norm with
  | None => Ok default_norm
  | Some norm =>
      if negb (in_list norm [available0; available1]) then Raise ValueError
      else if (Z.land norm default_norm =? norm)%Z then Ok norm else Raise ValueError
  end.

Definition given {A} (x : option A) : bool := match x with Some _ => true | None => false end.

Section Normalize.
  Variable K : Fld.
  Notation C := (Cx K).
  Variable V : Type.
  Variable O : NormOps K V.
  (** _avg.denoise, used to smooth the data from which a weight is computed *)
  Variable denoise : list (fval V) -> list (fval V).
  Local Notation "2" := (fadd K (f1 K) (f1 K)).

  (** scale_factor, norm.py 134-163 *)
  Definition scale_factor (variance : statarg K) : res K :=
    match variance with
    | SNone => Raise ValueError
    | SOne v => Ok v
    | STwo v1 v2 => Ok (fdiv K (fadd K v1 v2) 2)
    end.

  (** noise_delta, norm.py 232-262.  A missing variance never gets here. *)
  Definition noise_delta (variance : statarg K) (scale : bool) : K :=
    match variance with
    | STwo v1 v2 => fdiv K (fsub K v2 v1) (if scale then fadd K v1 v2 else 2)
    | _ => f0 K
    end.

  (** weight_from_data, norm.py 265-312, with pre_filter=True *)
  Definition weight_from_data (corr : list (fval V)) (delta scale_factor : K) (mode : string)
      : res (list (fval V)) :=
    if String.eqb mode "corr" then
      Ok (map (fv_map (fun x => op_weight_g O (op_over O x scale_factor) delta)) (denoise corr))
    else if String.eqb mode "diff" then
      Ok (map (fv_map (fun x => op_weight_d O (op_over O x scale_factor) delta)) (denoise corr))
    else Raise ValueError.

  (** weighted_sum, _core_nb.py 184-192, over arrays of equal length *)
  Definition weighted_sum (x y weight : list (fval V)) : list (fval V) :=
    map (fun p => fv_bind (fst (fst p)) (fun x => fv_bind (snd (fst p)) (fun y =>
                  fv_map (op_weighted O x y) (snd p))))
        (combine (combine x y) weight).

  (** _diff2corr, norm.py 429-433, and _variance2offset, 441-443 *)
  Definition _diff2corr (data : list (fval V)) (variance : statarg K) : res (list (fval V)) :=
    let* offset := scale_factor variance in
    Ok (map (fv_map (fun x => op_shift O (op_scal O (fopp K (fdiv K (f1 K) 2)) x) offset)) data).

  (** _corr2diff, norm.py 435-439 *)
  Definition _corr2diff (data : list (fval V)) (variance : statarg K) : res (list (fval V)) :=
    let* offset := scale_factor variance in
    let offset := fmul K offset 2 in
    Ok (map (fv_map (fun x => op_shift O (op_scal O (fopp K 2) x) offset)) data).

  (** _inspect_background, norm.py 446-463 *)
  Definition _inspect_background (background : statarg C) (norm : Z) : res (C * C) :=
    match background with
    | STwo b1 b2 => Ok (b1, b2)
    | SOne b => Ok (b, b)
    | SNone => if (0 <? norm)%Z then Raise ValueError else Ok (c0 K, c0 K)
    end.

  (** _method_from_data, norm.py 466-475 *)
  Definition _method_from_data (data : cdata K V) : res string :=
    match data with DCorr _ _ _ _ _ => Ok "corr" | DDiff _ _ _ _ => Ok "diff" | DBad => Raise ValueError end.

  (** _inspect_mode, norm.py 477-481 *)
  Definition _inspect_mode (mode : string) : res string :=
    if (String.eqb mode "corr") || (String.eqb mode "diff") then Ok mode else Raise ValueError.

  (** _default_norm_from_data, norm.py 421-426 *)
  Definition _default_norm_from_data (data : cdata K V) (norm : option Z) : res Z :=
    match data with
    | DCorr _ _ sq s1 _ => _norm_from_ccorr_data (given sq) (given s1) norm
    | DDiff _ _ s1 s2 => _norm_from_cdiff_data (given s1) (given s2) norm
    | DBad => Raise ValueError
    end.

  (** Elementwise evaluation over arrays which must have the same length (numpy would
      also stretch arrays of length one). *)
  Definition cells (lens : list nat) (n : nat) (f : nat -> fval V) : res (list (fval V)) :=
    if forallb (Nat.eqb n) lens then Ok (map f (seq 0 n)) else Raise ValueError.
  (** A required array: [None] has no shape and the formula fails. *)
  Definition need {A} (x : option A) : res A := match x with Some a => Ok a | None => Raise TypeError end.

  (** The part of normalize that evaluates one formula, norm.py 628-718 *)
  Definition normalize_formula (data : cdata K V) (bg1 bg2 : C) (variance : statarg K) (norm : Z) (mode : string)
      : res (list (fval V)) :=
    let to_mode r := if String.eqb mode "diff" then _corr2diff r variance else Ok r in
    match data with
    | DCorr d count sq s1 s2 =>
        let dn i := nth i d (op_zero O) in
        let cn i := nth i count 0 in
        let means :=
          let* m1 := need s1 in Ok (m1, match s2 with Some m2 => m2 | None => m1 end) in
        if (norm =? 1)%Z then
          let* r := cells [length count] (length d) (fun i => op_corr_baseline O (dn i) (cn i) bg1 bg2) in
          to_mode r
        else if (norm =? 2)%Z then
          let* offset := scale_factor variance in
          let* q := need sq in
          let* r := cells [length count; length q] (length d)
                      (fun i => op_struct_baseline O (dn i) (cn i) bg1 bg2 offset (nth i q (f0 K))) in
          to_mode r
        else if ((norm =? 5) || (norm =? 13))%Z then
          let* (m1, m2) := means in
          let* r := cells [length count; length m1; length m2] (length d)
                      (fun i => op_corr_subtracted O (dn i) (cn i) bg1 bg2 (nth i m1 (c0 K)) (nth i m2 (c0 K))) in
          to_mode r
        else if (norm =? 9)%Z then
          let* (m1, m2) := means in
          let* r := cells [length count; length m1; length m2] (length d)
                      (fun i => op_corr_compensated O (dn i) (cn i) (nth i m1 (c0 K)) (nth i m2 (c0 K))) in
          to_mode r
        else if ((norm =? 6) || (norm =? 14))%Z then
          let* offset := scale_factor variance in
          let* (m1, m2) := means in
          let* q := need sq in
          let* r := cells [length count; length q; length m1; length m2] (length d)
                      (fun i => op_struct_subtracted O (dn i) (cn i) bg1 bg2 offset (nth i q (f0 K))
                                  (nth i m1 (c0 K)) (nth i m2 (c0 K))) in
          to_mode r
        else if (norm =? 10)%Z then
          let* offset := scale_factor variance in
          let* (m1, m2) := means in
          let* q := need sq in
          let* r := cells [length count; length q; length m1; length m2] (length d)
                      (fun i => op_struct_compensated O (dn i) (cn i) offset (nth i q (f0 K))
                                  (nth i m1 (c0 K)) (nth i m2 (c0 K))) in
          to_mode r
        else Raise ValueError
    | DDiff d count s1 s2 =>
        let dn i := nth i d (op_zero O) in
        let cn i := nth i count 0 in
        let dm := csub bg2 bg1 in
        let to_mode r := if String.eqb mode "corr" then _diff2corr r variance else Ok r in
        if (norm =? 2)%Z then
          let* op := need (op_cdiff_1 O) in
          let* r := cells [length count] (length d) (fun i => op (dn i) (cn i) dm) in
          to_mode r
        else if ((norm =? 6) || (norm =? 14))%Z then
          let* op := need (op_cdiff_3 O) in
          let* m1 := need s1 in
          let* m2 := need s2 in
          let* r := cells [length count; length m1; length m2] (length d)
                      (fun i => op (dn i) (cn i) dm (nth i m1 (c0 K)) (nth i m2 (c0 K))) in
          to_mode r
        else Raise ValueError
    | DBad => Raise ValueError
    end.

  (** One call of normalize, norm.py 489-726; [rec] are the two recursive calls for a
      weighted norm.  The computation of bg1, bg2 in lines 579-580 has no effect and
      is left out. *)
  Definition normalize_body
      (rec : Z -> res (list (fval V)))
      (data : cdata K V) (background : statarg C) (variance : statarg K) (norm : option normarg)
      (mode : string) (scale : bool) (weight : option (list (fval V))) : res (list (fval V)) :=
    let* _ := _method_from_data data in
    let* mode := _inspect_mode mode in
    let* norm := match norm with
                 | Some (NStr s) => let* z := norm_from_string s in Ok (Some z)
                 | Some (NInt z) => Ok (Some z)
                 | None => Ok None
                 end in
    let* norm := _default_norm_from_data data norm in
    let* sf := if scale then let* s := scale_factor variance in Ok s else Ok (f1 K) in
    let* (bg1, bg2) := _inspect_background background norm in
    if (Z.land norm NORM_WEIGHTED =? NORM_WEIGHTED)%Z then
      let kept := Z.land norm (Z.lor NORM_SUBTRACTED NORM_COMPENSATED) in
      let* comp_data := rec (Z.lor kept NORM_STRUCTURED) in
      let* base_data := rec (Z.lor kept NORM_STANDARD) in
      let* sf := if scale then Ok (f1 K) else scale_factor variance in
      let delta := noise_delta variance scale in
      let* weight := match weight with
                     | Some w => Ok w
                     | None =>
                         let* w := weight_from_data base_data delta sf mode in
                         let* w := weight_from_data (weighted_sum comp_data base_data w) delta sf mode in
                         weight_from_data (weighted_sum comp_data base_data w) delta sf mode
                     end in
      Ok (weighted_sum comp_data base_data weight)
    else
      let* result := normalize_formula data bg1 bg2 variance norm mode in
      Ok (if scale then map (fv_map (fun x => op_over O x sf)) result else result).

  (** normalize, norm.py 489-726.  The recursive calls ask for norms which are not
      weighted, so that two levels suffice. *)
  Definition normalize (data : cdata K V) background variance norm mode scale weight : res (list (fval V)) :=
    normalize_body
      (fun z => normalize_body (fun _ => Raise ValueError) data background variance (Some (NInt z)) mode scale None)
      data background variance norm mode scale weight.
End Normalize.

(** take_data for one pixel is the identity; fold_data, norm.py 819-863.  [complex]
    tells whether the data is complex; mode is any integer.  A slice
    data[-1:-n:-1] runs over the positions L-1, L-2, ..., L-n+1. *)
Definition rev_slice {A} (data : list A) (stop : nat) : list A :=
  (** data[-1:-stop:-1] *)
  firstn (stop - 1) (rev data).
Definition fold_data (K : Fld) (iscomplex : bool) (data : list (Cx K)) (mode : Z) : res (list (Cx K)) :=
  if negb iscomplex then Raise ValueError else
  let n := ((length data + 1) / 2)%nat in
  if negb ((mode =? 0) || (mode =? 1) || (mode =? -1))%Z then Raise ValueError else
  if (0 <=? mode)%Z then
    let out := firstn n data in
    Ok (if (mode =? 0)%Z then
          match out with
          | [] => []
          | x :: l => x :: map (fun p => cscal (fdiv K (f1 K) (fadd K (f1 K) (f1 K))) (cadd (fst p) (conj (snd p))))
                            (combine l (rev_slice data n))
          end
        else out)
  else
    let out := rev_slice data (n + 1) in
    match data, out with
    | x :: _, _ :: l => Ok (x :: l)
    | _, _ => Raise IndexError
    end.
