(** Model of the sliders of DataViewer (and of the viewers derived from it), viewer.py 630-672 and 767-784:
    the figure is opened once, then every move of a slider or of the selector calls set_mask and plot.

    Simplifications: the figure is the values of the sliders, the mode and what was drawn last.  A slider
    of matplotlib keeps its value inside its limits; a move to the value it has is taken as a move.  If
    set_mask is refused in a callback, the viewer keeps its masks and the figure its curve (the error is
    printed by matplotlib).  Drawing itself is left out, and so is data_repr: the mode is drawn with the data. *)
From Coq Require Import String.
From Verif Require Import Base Ordered MapModel SectorModel ViewerModel.
Set Implicit Arguments.
Open Scope string_scope.
Open Scope nat_scope.

Section Sliders.
  Variable K : OFld.
  Local Notation fZ := (fZ K).
  Variable pi : K.
  Variable floor : K -> Z.
  Variable hyp arg : K -> K -> K.
  Variable A : Type.
  Variable cj : A -> A.
  Variable mean : list A -> A.
  Variable junk : nat -> nat -> bool.

  (** round() of Python, as used in viewer.py 661, 772 and 878: halves go to the even number *)
  Definition pyround (x : K) : Z :=
    let n := floor x in
    let d := fsub K x (fZ n) in
    let half := fdiv K (f1 K) (fZ 2) in
    if flt K d half then n else if flt K half d then (n + 1)%Z else if Z.even n then n else (n + 1)%Z.
  (** The limits of the sliders, viewer.py 651-657, kept by matplotlib *)
  Definition clamp (lo hi x : K) : K := if flt K x lo then lo else if flt K hi x then hi else x.

  Record panel := Panel {
    p_k : K; p_angle : K; p_sector : K;
    p_kmax : Z; p_kstep : K; p_mode : string;
    p_view : viewer K A;
    p_drawn : option (string * A)
  }.
  (** The attributes kmap and anglemap set by _init_map, viewer.py 619 *)
  Definition with_maps (v : viewer K A) (maps : mat K * mat K) : viewer K A :=
    @Viewer K A (v_shape v) (v_computed v) (v_kisize v) (v_kjsize v) (v_data v) (Some maps) (v_masks v).
  (** plot with a figure, viewer.py 774-784: the data of the present masks is drawn *)
  Definition redraw (p : panel) : panel :=
    match get_data cj mean (p_view p) with
    | Ok a => Panel (p_k p) (p_angle p) (p_sector p) (p_kmax p) (p_kstep p) (p_mode p) (p_view p) (Some (p_mode p, a))
    | Raise _ => p
    end.
  Definition with_view (p : panel) (v : viewer K A) : panel :=
    Panel (p_k p) (p_angle p) (p_sector p) (p_kmax p) (p_kstep p) (p_mode p) v (p_drawn p).
  (** update, viewer.py 660-662 *)
  Definition update (p : panel) : panel :=
    match set_mask pi floor hyp arg junk (p_view p) (pyround (p_k p)) (p_angle p) (p_sector p) (p_kstep p) with
    | Ok (v, _) => redraw (with_view p v)
    | Raise _ => p
    end.
  (** _init_fig, viewer.py 630-657, and plot without a figure, viewer.py 767-784; k, angle, sector, kstep and
      mode are the attributes *)
  Definition open_panel (v : viewer K A) (k angle sector kstep : K) (mode : string) : res panel :=
    match v_data v with
    | None => Raise ValueError
    | Some _ =>
        let* maps := _init_map hyp arg v in
        let* _ := fft2_sector_indexmap K pi floor (fst maps) (snd maps) angle sector kstep in
        let* top := max_entry K (fst maps) in
        let kmax := floor top in
        let* (v', _) := set_mask pi floor hyp arg junk (with_maps v maps) (pyround k) angle sector kstep in
        let* a := get_data cj mean v' in
        Ok (Panel (clamp (f0 K) (fZ kmax) k) (clamp (fopp K (fZ 90)) (fZ 90) angle) (clamp (f0 K) (fZ 180) sector) kmax kstep mode v' (Some (mode, a)))
    end.
  (** The callbacks, viewer.py 669-672; the selector sets the mode first, viewer.py 664-666 *)
  Inductive move := SlideK (x : K) | SlideAngle (x : K) | SlideSector (x : K) | Select (m : string).
  Definition moved (p : panel) (m : move) : panel :=
    match m with
    | SlideK x => update (Panel (clamp (f0 K) (fZ (p_kmax p)) x) (p_angle p) (p_sector p) (p_kmax p) (p_kstep p) (p_mode p) (p_view p) (p_drawn p))
    | SlideAngle x => update (Panel (p_k p) (clamp (fopp K (fZ 90)) (fZ 90) x) (p_sector p) (p_kmax p) (p_kstep p) (p_mode p) (p_view p) (p_drawn p))
    | SlideSector x => update (Panel (p_k p) (p_angle p) (clamp (f0 K) (fZ 180) x) (p_kmax p) (p_kstep p) (p_mode p) (p_view p) (p_drawn p))
    | Select m => update (Panel (p_k p) (p_angle p) (p_sector p) (p_kmax p) (p_kstep p) m (p_view p) (p_drawn p))
    end.
  Definition slide (l : list move) (p : panel) : panel := fold_left moved l p.
End Sliders.
