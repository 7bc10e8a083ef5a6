(** Model of normalize_multi, multitau.py 1656-1738, for one pixel.  Printing and the
    mask are left out.  The second part of the data is given as one tuple for each level:
    normalize treats the entries of all leading axes alike, and the filter runs along the
    last axis.  (With no level at all the second call still inspects its arguments; it
    inspects nothing that the first call has not.) *)
From Verif Require Import Base Kernels NormModel CorrModel VecModel.
From Coq Require Import String.
Open Scope string_scope.
Open Scope nat_scope.
Local Notation length := List.length.
Set Implicit Arguments.

Section MultiNorm.
  Variable K : Fld.
  Notation C := (Cx K).
  Variable V : Type.
  Variable O : NormOps K V.
  Variable denoise : list (fval V) -> list (fval V).

  (** normalize_multi, multitau.py 1656-1738 *)
  Definition normalize_multi (data : cdata K V * list (cdata K V)) (background : statarg C) (variance : statarg K)
      (norm : option normarg) (mode : string) (scale : bool) : res (list (fval V) * list (list (fval V))) :=
    let '(lin, multi) := data in
    let* _ := _method_from_data lin in
    let* mode := _inspect_mode mode in
    let* norm := match norm with
                 | Some (NStr s) => let* z := norm_from_string s in Ok (Some z)
                 | Some (NInt z) => Ok (Some z)
                 | None => Ok None
                 end in
    let* norm := _default_norm_from_data lin norm in
    let* lin := normalize O denoise lin background variance (Some (NInt norm)) mode scale None in
    let* multi := map_res (fun row => normalize O denoise row background variance (Some (NInt norm)) mode scale None) multi in
    Ok (lin, multi).
End MultiNorm.
