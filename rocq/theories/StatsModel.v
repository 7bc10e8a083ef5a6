(** core.py 960-999: subtract_background and stats, for one pixel along the axis of frames.
    Other axes, several pixels and the output array [out] are not modelled: every pixel is
    treated alike. *)
From Verif Require Import Base NormModel.
Set Implicit Arguments.

Section Stats.
  Variable K : Fld.
  Notation C := (Cx K).

  (** numpy.mean of one pixel: the sum of the frames over their number; nan if there are none
      (core.py 969, 996, 999) *)
  Definition np_mean (l : list C) : fval C := cover (Sum (cmon K) l (fun x => x)) (length l).
  (** numpy.var of one pixel: the mean of |x - mean|^2 (core.py 996, 999) *)
  Definition np_var (l : list C) : fval K :=
    fv_bind (np_mean l) (fun m => over K (Sum (fmon K) l (fun x => cnorm2 (csub x m))) (length l)).

  (** subtract_background, core.py 960-974 *)
  Definition subtract_background (data : list C) (bg : option C) (return_bg : bool) : list (fval C) * option (fval C) :=
    let bg := match bg with None => np_mean data | Some b => Fin b end in
    let data := map (fun x => fv_map (fun b => csub x b) bg) data in
    if return_bg then (data, Some bg) else (data, None).

  (** stats, core.py 976-999; [NonFin] if one of the numbers is nan *)
  Definition stats (f1 : list C) (f2 : option (list C)) : fval (statarg C * statarg K) :=
    match f2 with
    | None => fv_bind (np_mean f1) (fun m => fv_map (fun v => (SOne m, SOne v)) (np_var f1))
    | Some f2 =>
        fv_bind (np_mean f1) (fun m1 => fv_bind (np_mean f2) (fun m2 =>
        fv_bind (np_var f1) (fun v1 => fv_map (fun v2 => (STwo m1 m2, STwo v1 v2)) (np_var f2))))
    end.
End Stats.
