(** Model of acorr and ccorr, core.py 1004-1296, for one pixel.  The argument
    [aligned] is the outcome of _is_aligned (core.py 247-252); printing, [axis] and
    copies of the data are left out.  [W] is the family of roots of unity of the FFT
    library (FftModel.v). *)
From Verif Require Import Base Kernels CoreModel FftModel NormModel.
From Coq Require Import String.
Open Scope string_scope.
Open Scope nat_scope.
Local Notation length := List.length.
Set Implicit Arguments.

(** _default_method, core.py 1004-1009 *)
Definition _default_method (method : option string) (n : option nat) : res string :=
  match method with
  | None => Ok (match n with None => "fft" | Some _ => "corr" end)
  | Some m => if (String.eqb m "corr" || String.eqb m "fft" || String.eqb m "diff")%bool then Ok m else Raise ValueError
  end.

(** _default_norm, core.py 1011-1020 *)
Definition _default_norm (norm : option Z) (method : string) (cross : bool) : res Z :=
  let supported :=
    if String.eqb method "diff" then
      (if cross then [NORM_STRUCTURED; Z.lor NORM_STRUCTURED NORM_SUBTRACTED] else [NORM_STRUCTURED])
    else [1; 2; 3; 5; 6; 7]%Z in
  let norm := match norm with None => last supported 0%Z | Some z => z end in
  if in_list norm supported then Ok norm else Raise ValueError.

(** norm & flag *)
Definition has_flag (norm flag : Z) : bool := negb (Z.land norm flag =? 0)%Z.

(** The tuple assignment of aout, core.py 1075-1078 and 1220-1225. *)
Definition unpack_aout {K : Fld} {V} (diff : bool) (aout : option (cdata K V))
    : res (option (list V) * option (list nat) * option (list K) * option (list (Cx K)) * option (list (Cx K))) :=
  match aout, diff with
  | None, _ => Ok (None, None, None, None, None)
  | Some (DDiff d c s1 s2), true => Ok (Some d, Some c, None, s1, s2)
  | Some (DCorr d c sq s1 s2), false => Ok (Some d, Some c, sq, s1, s2)
  | _, _ => Raise ValueError
  end.

Section Corr.
  Variable K : Fld.
  Notation C := (Cx K).
  Variable W : nat -> Cx K.

  (** abs2, _core_nb.py 17-25 *)
  Definition abs2 (f : list C) : list K := map (@cnorm2 K) f.

  Section Cross.
    Variable V : Type.
    Variable complex : bool.
    (** cross_correlate_fft, cross_correlate and cross_difference for this output type *)
    Variable fft corr diff : list C -> list C -> option (list Z) -> option (list Z) -> option nat -> option (list V) -> res (list V).

    (** ccorr, core.py 1137-1296; [f1s], [f2s] are the optional precomputed squares. *)
    Definition ccorr_gen (f1 f2 : list C) (t1 t2 : option (list Z)) (n : option nat)
        (norm : option Z) (method : option string) (f1s f2s : option (list K)) (aout : option (cdata K V))
        : res (cdata K V) :=
      let* method := _default_method method n in
      let* norm := _default_norm norm method true in
      let is_diff := String.eqb method "diff" in
      if (is_diff && complex)%bool then Raise ValueError else
      let* (cor, count, sq, ds1, ds2) := unpack_aout is_diff aout in
      let* (ts, n) := _inspect_cross_arguments (length f1) (length f2) t1 t2 n (option_map (@length V) cor) complex in
      let t1 := option_map fst ts in
      let t2 := option_map snd ts in
      let* cor := (if String.eqb method "fft" then fft else if String.eqb method "corr" then corr else diff)
                    f1 f2 t1 t2 (Some n) cor in
      let* count := match ts with
                    | None => let t := TArray (arange (length f1)) in cross_count t (Some t) (Some n) complex count
                    | Some (t1, t2) => cross_count (TArray t1) (Some (TArray t2)) (Some n) complex count
                    end in
      let use_fft := (String.eqb method "fft" && given ts)%bool in
      let sum_sq := if use_fft then cross_sum_fft_real W else cross_sum (fgrp K) in
      let sum_f := if use_fft then cross_sum_fft_complex W else cross_sum (cgrp K) in
      let* sq := if (has_flag norm NORM_STRUCTURED && negb is_diff)%bool then
                   let f1s := match f1s with Some s => s | None => abs2 f1 end in
                   let f2s := match f2s with Some s => s | None => abs2 f2 end in
                   let* sq := sum_sq f1s t1 t2 (Some n) complex false sq in
                   let* sq := sum_sq f2s t2 t1 (Some n) complex true (Some sq) in
                   Ok (Some sq)
                 else Ok sq in
      let* (ds1, ds2) := if has_flag norm NORM_SUBTRACTED then
                           let* ds1 := sum_f f1 t1 t2 (Some n) complex false ds1 in
                           let* ds2 := sum_f f2 t2 t1 (Some n) complex true ds2 in
                           Ok (Some ds1, Some ds2)
                         else Ok (ds1, ds2) in
      Ok (if is_diff then DDiff cor count ds1 ds2 else DCorr cor count sq ds1 ds2).
  End Cross.

  (** ccorr(..., complex=False) *)
  Definition ccorr (aligned : bool) := ccorr_gen false
    (cross_correlate_fft W)
    (fun f1 f2 t1 t2 n aout => cross_correlate f1 f2 t1 t2 n aligned aout)
    (fun f1 f2 t1 t2 n aout => cross_difference f1 f2 t1 t2 n aligned aout).
  (** ccorr(..., complex=True); the difference method is rejected *)
  Definition ccorr_complex (aligned : bool) := ccorr_gen true
    (cross_correlate_fft_complex W)
    (fun f1 f2 t1 t2 n aout => cross_correlate_complex f1 f2 t1 t2 n aligned aout)
    (fun _ _ _ _ _ _ => Raise ValueError).

  Section Auto.
    Variable V : Type.
    Variable fft corr diff : list C -> option (list Z) -> option nat -> option (list V) -> res (list V).

    (** acorr, core.py 1022-1135 *)
    Definition acorr_gen (f : list C) (t : option (list Z)) (fs : option (list K)) (n : option nat)
        (norm : option Z) (method : option string) (aout : option (cdata K V)) : res (cdata K V) :=
      let* method := _default_method method n in
      let* norm := _default_norm norm method false in
      let is_diff := String.eqb method "diff" in
      let* (cor, count, sq, ds, _) := unpack_aout is_diff aout in
      let* (t, n) := _inspect_auto_arguments (length f) t n (option_map (@length V) cor) in
      let* cor := (if String.eqb method "fft" then fft else if String.eqb method "corr" then corr else diff)
                    f t (Some n) cor in
      let* count := auto_count (TArray match t with None => arange (length f) | Some t => t end) (Some n) count in
      let use_fft := (String.eqb method "fft" && given t)%bool in
      let sum_sq := if use_fft then auto_sum_fft_real W else auto_sum (fgrp K) in
      let sum_f := if use_fft then auto_sum_fft_complex W else auto_sum (cgrp K) in
      let* sq := if (has_flag norm NORM_STRUCTURED && negb is_diff)%bool then
                   let fs := match fs with Some s => s | None => abs2 f end in
                   let* sq := sum_sq (map (fmul K (fadd K (f1 K) (f1 K))) fs) t (Some n) sq in
                   Ok (Some sq)
                 else Ok sq in
      let* ds := if (has_flag norm NORM_SUBTRACTED && negb is_diff)%bool then
                   let* ds := sum_f f t (Some n) ds in Ok (Some ds)
                 else Ok ds in
      Ok (if is_diff then DDiff cor count None None else DCorr cor count sq ds None).
  End Auto.

  (** acorr(..., complex=False) *)
  Definition acorr (aligned : bool) := acorr_gen
    (auto_correlate_fft W)
    (fun f t n aout => auto_correlate f t n aligned aout)
    (fun f t n aout => auto_difference f t n aligned aout).
  (** acorr(..., complex=True).  The difference method ignores [complex] and returns
      real numbers, here embedded into the complex ones; an output array given for it
      must be real, which is not modelled. *)
  Definition acorr_complex (aligned : bool) := acorr_gen
    (auto_correlate_fft_complex W)
    (fun f t n aout => auto_correlate_complex f t n aligned aout)
    (fun f t n _ => let* r := auto_difference f t n aligned None in Ok (map (@cofre K) r)).
End Corr.
