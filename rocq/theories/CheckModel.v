(** Model of the check boxes of CorrViewer and MultitauViewer, viewer.py 843-882 and 971-975: the normalization that they set.

    Simplifications: the data is what set_norm looks at (for MultitauViewer that of data[0]): the kind of the tuple and which of its
    sums are there.  CheckButtons.set_active of matplotlib turns a box around and calls the callback, as a click does.  The masks and
    the drawing that follow (set_mask, plot) are those of SlideModel and left out here. *)
From Verif Require Import Base NormModel.
Open Scope Z_scope.
Open Scope list_scope.
Set Implicit Arguments.

Inductive tuple := Corr (has_sq has_s1 : bool) | Diff (has_s1 has_s2 : bool) | Other.
(** set_norm, viewer.py 843-846 and 971-975: _method_from_data and _default_norm_from_data, norm.py 421-426 and 466-475 *)
Definition set_norm (t : tuple) (value : option Z) : res Z :=
  match t with
  | Corr sq s1 => _norm_from_ccorr_data sq s1 value
  | Diff s1 s2 => _norm_from_cdiff_data s1 s2 value
  | Other => Raise ValueError
  end.
(** The status of the boxes structured, subtracted, weighted and compensated *)
Record boxes := Boxes { structured : bool; subtracted : bool; weighted : bool; compensated : bool }.
(** self.active, viewer.py 856 *)
Definition active (norm : Z) : boxes :=
  Boxes (negb (Z.land norm NORM_STRUCTURED =? 0)) (negb (Z.land norm NORM_SUBTRACTED =? 0))
    (Z.land norm NORM_WEIGHTED =? NORM_WEIGHTED) (Z.land norm NORM_COMPENSATED =? NORM_COMPENSATED).
(** The norm of a status, viewer.py 866-873 *)
Definition norm_of (b : boxes) : Z :=
  let norm := if structured b then NORM_STRUCTURED else NORM_STANDARD in
  let norm := if subtracted b then Z.lor norm NORM_SUBTRACTED else norm in
  let norm := if weighted b then Z.lor norm NORM_WEIGHTED else norm in
  if compensated b then Z.lor norm NORM_COMPENSATED else norm.
Inductive label := Structured | Subtracted | Weighted | Compensated.
Definition turn (l : label) (b : boxes) : boxes :=
  match l with
  | Structured => Boxes (negb (structured b)) (subtracted b) (weighted b) (compensated b)
  | Subtracted => Boxes (structured b) (negb (subtracted b)) (weighted b) (compensated b)
  | Weighted => Boxes (structured b) (subtracted b) (negb (weighted b)) (compensated b)
  | Compensated => Boxes (structured b) (subtracted b) (weighted b) (negb (compensated b))
  end.
(** The status and the attribute norm *)
Definition state : Type := boxes * Z.
(** _init_fig, viewer.py 851-858; [norm] is the argument of __init__ *)
Definition open_boxes (t : tuple) (norm : option Z) : res state := let* n := set_norm t norm in Ok (active n, n).
(** A click, or set_active, and update, viewer.py 862-879: a norm that is refused turns the box back, which calls update once more.
    [depth] bounds the calls of update inside of update; None is more of them (a RecursionError at last). *)
Fixpoint click_box (depth : nat) (t : tuple) (l : label) (s : state) : option state :=
  match depth with
  | O => None
  | S depth =>
      let b := turn l (fst s) in
      match set_norm t (Some (norm_of b)) with
      | Ok n => Some (b, n)
      | Raise _ => click_box depth t l (b, snd s)
      end
  end.
Fixpoint clicks (depth : nat) (t : tuple) (ls : list label) (s : state) : option state :=
  match ls with [] => Some s | l :: ls => match click_box depth t l s with Some s => clicks depth t ls s | None => None end end.
