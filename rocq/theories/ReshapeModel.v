(** Reshaping of frames for threaded computation: core.py 254-388.

    An array is its shape and the list of its values in C order.  Simplifications: the
    values of count data and of the other arrays of a data tuple have the same type here;
    an assignment to masked positions requires exactly matching shapes (numpy would also
    broadcast axes of length one); NaN is a parameter. *)
From Verif Require Import Base.
Set Implicit Arguments.

Definition prodl (s : list nat) : nat := fold_right Nat.mul 1 s.
Record nd (A : Type) := Nd { nshape : list nat; nvals : list A }.
Definition wf A (a : nd A) : Prop := length (nvals a) = prodl (nshape a).
(** ndarray.reshape with a shape of non-negative integers *)
Definition reshape A (a : nd A) (s : list nat) : res (nd A) :=
  if prodl s =? prodl (nshape a) then Ok (Nd s (nvals a)) else Raise ValueError.
(** ndarray.reshape if the shape may have negative entries.  In the calls below negative
    entries only occur in pairs, or beside an axis of length zero, and numpy raises
    ValueError in both cases. *)
Definition reshape_Z A (a : nd A) (s : list Z) : res (nd A) :=
  if existsb (fun d => (d <? 0)%Z) s then Raise ValueError else reshape a (map Z.to_nat s).

(** thread_frame_shape, core.py 254-284; reduce of an empty shape raises TypeError,
    total // 0 raises ZeroDivisionError (only ValueError is caught). *)
Definition thread_frame_shape (shape : list nat) (thread_divisor : option Z) (force_2d : bool) : res (list Z) :=
  let thread_divisor := if ((length shape =? 1) && negb (match thread_divisor with Some _ => true | None => false end) && force_2d)%bool then Some 1%Z else thread_divisor in
  match thread_divisor with
  | None => Ok (map Z.of_nat shape)
  | Some d =>
      match shape with
      | [] => Raise TypeError
      | _ =>
          let total := Z.of_nat (prodl shape) in
          if (d =? 0)%Z then Raise ZeroDivisionError
          else if (total =? d * (total / d))%Z then Ok [d; (total / d)%Z]
          else Raise ValueError
      end
  end.

(** Blocks number 0, 1, ..., n-1 of length [r] *)
Definition blocks A (r n : nat) (l : list A) : list (list A) := map (fun i => firstn r (skipn (i * r) l)) (seq 0 n).
(** The entries at which the mask is True *)
Definition select A (mask : list bool) (l : list A) : list A := map snd (filter fst (combine mask l)).
Definition count_true (mask : list bool) : nat := length (filter (fun b => b) mask).
Definition list_eqb (a b : list nat) : bool := if list_eq_dec Nat.eq_dec a b then true else false.
(** f[:,mask]: the axes of the mask follow the first axis of [f]. *)
Definition index_mask A (f : nd A) (mask : nd bool) : res (nd A) :=
  match nshape f with
  | [] => Raise IndexError
  | n :: s =>
      let k := length (nshape mask) in
      if list_eqb (firstn k s) (nshape mask) then
        let rest := skipn k s in
        let P := prodl (nshape mask) in
        Ok (Nd (n :: count_true (nvals mask) :: rest)
              (flat_map (fun row => concat (select (nvals mask) (blocks (prodl rest) P row))) (blocks (P * prodl rest) n (nvals f))))
      else Raise IndexError
  end.

(** list.insert *)
Definition insert A (l : list A) (i : nat) (x : A) : list A := firstn i l ++ x :: skipn i l.
(** list.pop *)
Definition remove_at A (l : list A) (i : nat) : list A := firstn i l ++ skipn (S i) l.
(** reshape_input, core.py 286-322 *)
Definition reshape_input A (f : nd A) (axis : Z) (thread_divisor : option Z) (mask : option (nd bool)) : res (nd A * list nat) :=
  match py_index (length (nshape f)) axis with
  | None => Raise IndexError
  | Some axis =>
      let* f :=
        match mask with
        | None => Ok f
        | Some mask => if negb (axis =? 0) then Raise ValueError else index_mask f mask
        end in
      let n := nth axis (nshape f) 0 in
      let shape := remove_at (nshape f) axis in
      let force_2d := match mask with None => true | Some _ => false end in
      let* new_shape := thread_frame_shape shape thread_divisor force_2d in
      let* g := reshape_Z f (insert new_shape axis (Z.of_nat n)) in
      Ok (g, shape)
  end.

(** out[mask] = x, out[~mask] = fill *)
Fixpoint scatter A (mask : list bool) (x : list A) (fill : A) : list A :=
  match mask with
  | [] => []
  | true :: mask => match x with b :: x => b :: scatter mask x fill | [] => fill :: scatter mask x fill end
  | false :: mask => fill :: scatter mask x fill
  end.

(** reshape_frame, core.py 324-332 *)
Definition reshape_frame A (nan : A) (frame : nd A) (shape : list nat) (mask : option (nd bool)) : res (nd A) :=
  let* x := reshape frame shape in
  match mask with
  | None => Ok x
  | Some mask =>
      if list_eqb (nshape x) [count_true (nvals mask)] then Ok (Nd (nshape mask) (scatter (nvals mask) (nvals x) nan))
      else Raise ValueError
  end.

(** s[0:-k] *)
Definition slice_neg A (k : nat) (s : list A) : list A := if k =? 0 then [] else firstn (length s - k) s.
(** The local function _reshape of reshape_output, core.py 361-372 *)
Definition reshape_one A (nan : A) (shape : list nat) (mask : option (nd bool)) (x : nd A) : res (nd A) :=
  let* x := reshape x shape in
  match mask with
  | None => Ok x
  | Some mask =>
      let lead := slice_neg (length (nshape mask)) (nshape x) in
      let m := last (nshape x) 0 in
      let c := count_true (nvals mask) in
      if list_eqb (nshape x) (lead ++ [c; m]) then
        Ok (Nd (lead ++ nshape mask ++ [m])
              (flat_map (fun block => concat (scatter (nvals mask) (blocks m c block) (repeat nan m))) (blocks (c * m) (prodl lead) (nvals x))))
      else Raise ValueError
  end.
(** The new shape, core.py 373-380, from the shape of data[0] *)
Definition output_shape (shape : option (list nat)) (mask : option (nd bool)) (s0 : list nat) : res (list nat) :=
  let* shape :=
    match shape, mask with
    | Some shape, _ => Ok shape
    | None, Some mask => Ok (nshape mask)
    | None, None => Raise ValueError
    end in
  let k := match mask with None => length shape + 1 | Some mask => length (nshape mask) end in
  match s0 with
  | [] => Raise IndexError
  | _ => Ok (slice_neg k s0 ++ shape ++ [last s0 0])
  end.
Fixpoint map_res A B (f : nat -> A -> res B) (i : nat) (l : list A) : res (list B) :=
  match l with
  | [] => Ok []
  | x :: l => let* y := f i x in let* ys := map_res f (S i) l in Ok (y :: ys)
  end.
(** reshape_output, core.py 334-388, of a tuple: the second array, the count data, is
    returned as it is. *)
Definition reshape_output A (nan : A) (data : list (option (nd A))) (shape : option (list nat)) (mask : option (nd bool)) : res (list (option (nd A))) :=
  match shape, mask with
  | None, None => Raise ValueError
  | _, _ =>
      match data with
      | Some x0 :: _ =>
          let* shape := output_shape shape mask (nshape x0) in
          map_res (fun i x =>
            match x with
            | Some x => if i =? 1 then Ok (Some x) else let* y := reshape_one nan shape mask x in Ok (Some y)
            | None => Ok None
            end) 0 data
      | None :: _ => Raise AttributeError
      | [] => Raise IndexError
      end
  end.
(** reshape_output of an array (normalized data): data[0] is its first row. *)
Definition reshape_output_array A (nan : A) (data : nd A) (shape : option (list nat)) (mask : option (nd bool)) : res (nd A) :=
  match shape, mask with
  | None, None => Raise ValueError
  | _, _ =>
      match nshape data with
      | S _ :: s0 => let* shape := output_shape shape mask s0 in reshape_one nan shape mask data
      | _ => Raise IndexError
      end
  end.
