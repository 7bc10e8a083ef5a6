(** Model of subtract, add, multiply and normalize_video of cddm/video.py with the memory that they write to and with the types of the pixels. *)
From Verif Require Import Base Kernels VideoModel.
Open Scope list_scope.
Set Implicit Arguments.

Section Inplace.
  Variable K : Fld.
  (** An integer as a number *)
  Definition of_Z (z : Z) : K := match z with Z0 => f0 K | Zpos p => fnat K (Pos.to_nat p) | Zneg p => fopp K (fnat K (Pos.to_nat p)) end.
  (** A frame: unsigned integers of a number of bits, or floating point numbers (exact here) *)
  Inductive arr := AInt (bits : nat) (x : frame Z) | AFlt (x : frame K).
  (** The storage of an integer with [bits] bits *)
  Definition wrap (bits : nat) (z : Z) : Z := (z mod 2 ^ Z.of_nat bits)%Z.
  Definition as_float (x : arr) : frame K := match x with AInt _ x => map (map of_Z) x | AFlt x => x end.
  (** An operation for integers and for numbers *)
  Record operation := Operation { op_int : Z -> Z -> Z; op_num : K -> K -> K }.
  Definition op_sub : operation := Operation Z.sub (fsub K).
  Definition op_add : operation := Operation Z.add (fadd K).
  Definition op_mul : operation := Operation Z.mul (fmul K).
  (** The array of x op y of numpy: two arrays of integers are calculated in the larger of the two types *)
  Definition ufunc (op : operation) (x y : arr) : res arr :=
    match x, y with
    | AInt a x, AInt b y => let* r := pointwise (fun u v => wrap (Nat.max a b) (op_int op u v)) x y in Ok (AInt (Nat.max a b) r)
    | _, _ => let* r := pointwise (op_num op) (as_float x) (as_float y) in Ok (AFlt r)
    end.
  (** The array [r] written to the memory of [x] with casting "same_kind": integers are cut to the type of x, numbers are not cut to
      integers (UFuncTypeError, a TypeError) *)
  Definition write (x r : arr) : res arr :=
    match x, r with
    | AInt a _, AInt _ r => Ok (AInt a (map (map (wrap a)) r))
    | AInt _ _, AFlt _ => Raise TypeError
    | AFlt _, r => Ok (AFlt (as_float r))
    end.
  (** np.subtract(x, y, x) and the others; the types are looked at before the shapes *)
  Definition ufunc_into (op : operation) (x y : arr) : res arr :=
    match x, y with
    | AInt _ _, AFlt _ => Raise TypeError
    | _, _ => let* r := ufunc op x y in write x r
    end.
  (** np.asarray(x, dtype = ...) *)
  Inductive dtype := DInt (bits : nat) | DFlt.
  Variable trunc : K -> Z.
  Definition cast (d : option dtype) (x : arr) : arr :=
    match d, x with
    | None, x => x
    | Some (DInt b), AInt _ x => AInt b (map (map (wrap b)) x)
    | Some (DInt b), AFlt x => AInt b (map (map (fun v => wrap b (trunc v))) x)
    | Some DFlt, x => AFlt (as_float x)
    end.
  (** subtract, add, multiply with inplace = False: video.py 249-250, 276-277, 327-328, one frame *)
  Definition copy_op (op : operation) (d : option dtype) (x w : arr) : res arr := let* r := ufunc op x w in Ok (cast d r).

  (** The memory: an array at every address.  A video in memory is a list of multi-frames, which are lists of addresses. *)
  Definition heap : Type := nat -> arr.
  Definition store (h : heap) (a : nat) (x : arr) : heap := fun b => if (b =? a)%nat then x else h b.
  (** The tuple of one multi-frame with inplace = True, video.py 247-248, 274-275, 325-326: pairs of addresses (frame, w).
      The frames before one that raises are already written. *)
  Fixpoint do_frames (op : operation) (h : heap) (l : list (nat * nat)) : heap * option pyexc :=
    match l with
    | [] => (h, None)
    | (f, w) :: l => match ufunc_into op (h f) (h w) with Raise e => (h, Some e) | Ok r => do_frames op (store h f r) l end
    end.
  (** subtract, add, multiply with inplace = True of two videos in memory, video.py 243-250, 270-277, 321-328: what the frames hold
      at the time they are yielded, the memory at the end and the exception *)
  Fixpoint run_inplace (op : operation) (h : heap) (l : list (list nat * list nat)) : list (list arr) * heap * option pyexc :=
    match l with
    | [] => ([], h, None)
    | (frames, arrays) :: l =>
        if negb (length frames =? length arrays)%nat then ([], h, Some ValueError) else
        match do_frames op h (combine frames arrays) with
        | (h, Some e) => ([], h, Some e)
        | (h, None) => let '(ys, h', e) := run_inplace op h l in (map h frames :: ys, h', e)
        end
    end.
  Definition inplace_videos (op : operation) (h : heap) (x y : list (list nat)) : list (list arr) * heap * option pyexc := run_inplace op h (combine x y).

  (** np.divide(frame, frame.mean(), frame), video.py 299: division by a mean of zero gives inf and nan, see VideoModel.normalize_frame *)
  Definition divide_into (x : arr) : res arr :=
    match x with
    | AInt _ _ => Raise TypeError
    | AFlt x => Ok (AFlt (map (map (fun v => fdiv K v (frame_mean K x))) x))
    end.
  Fixpoint norm_frames (h : heap) (l : list nat) : heap * option pyexc :=
    match l with
    | [] => (h, None)
    | f :: l => match divide_into (h f) with Raise e => (h, Some e) | Ok r => norm_frames (store h f r) l end
    end.
  (** normalize_video with inplace = True, video.py 297-299 *)
  Fixpoint run_normalize (h : heap) (l : list (list nat)) : list (list arr) * heap * option pyexc :=
    match l with
    | [] => ([], h, None)
    | frames :: l =>
        match norm_frames h frames with
        | (h, Some e) => ([], h, Some e)
        | (h, None) => let '(ys, h', e) := run_normalize h l in (map h frames :: ys, h', e)
        end
    end.
End Inplace.
Arguments AInt {K} bits x.
Arguments AFlt {K} x.
