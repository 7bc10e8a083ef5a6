(** Model of the images of show_diff (cddm/video.py 721-730) and of ImageShow._cv_imshow (373-380).

    Simplifications: one frame is the list of its (real) pixels, numbers are exact; frames of different shapes are a
    ValueError (numpy would repeat a frame of one pixel); infinities and nan are [NonFin]. *)
From Verif Require Import Base Ordered NormModel.
Set Implicit Arguments.

Section Shown.
  Variable K : OFld.
  Local Notation two := (fadd K (f1 K) (f1 K)).

  (** max(a, b) of Python *)
  Definition py_max (a b : K) : K := if flt K a b then b else a.

  (** x.max(): a ValueError for an empty array *)
  Definition array_max (x : list K) : res K :=
    match x with [] => Raise ValueError | a :: x => Ok (fold_left py_max x a) end.

  (** x.mean() of an array that is not empty *)
  Definition array_mean (x : list K) : K := fdiv K (lsum (fmon K) x) (fnat K (length x)).

  (** x == 0 *)
  Definition is_zero (x : K) : bool := negb (flt K x (f0 K) || flt K (f0 K) x).

  (** m = 2*max(x.max(), y.max()) and im = x/m - y/m + 0.5, video.py 728-729; nothing finite is left when m is zero *)
  Definition diff_of (x y : list K) : res (list (fval K)) :=
    let* a := array_max x in
    let* b := array_max y in
    let m := fmul K two (py_max a b) in
    if negb (length x =? length y) then Raise ValueError
    else Ok (map (fun p => if is_zero m then NonFin else Fin (fadd K (fsub K (fdiv K (fst p) m) (fdiv K (snd p) m)) (fdiv K (f1 K) two))) (combine x y)).

  (** _process_frames, video.py 721-730, of a pair of frames; with normalize and a mean of zero all pixels of that frame are infinite or nan, and so are those of the image *)
  Definition diff_image (normalize : bool) (x y : list K) : res (list (fval K)) :=
    if normalize then
      let* _ := array_max x in
      let* _ := array_max y in
      if is_zero (array_mean x) || is_zero (array_mean y) then
        if negb (length x =? length y) then Raise ValueError else Ok (map (fun _ => NonFin) x)
      else diff_of (map (fun v => fdiv K v (array_mean x)) x) (map (fun v => fdiv K v (array_mean y)) y)
    else diff_of x y.

  (** _cv_imshow, video.py 377-378 *)
  Definition cv_image (im : list K) : res (list K) :=
    let* m := array_max im in
    if flt K (f1 K) m then Ok (map (fun v => fdiv K v m) im) else Ok im.
End Shown.
