(** Model of brownian_walk and brownian_particles (sim.py) with their arguments `delta`,
    `velocity`, `dt` and `x0`, of make_step (_sim_nb.py) and of random_time_count (sim.py).

    Simplifications: coordinates are exact elements of an ordered field; np.sqrt is any function
    [fsqrt]; the random generators are oracles ([normals i j c]: the normal variable drawn in
    step i for row j and coordinate c, [uniform]: the numbers of np.random.rand); num_particles is
    an integer; arrays have at most two axes.  A generator is the list of its values and the
    exception with which it ends.  [None]: the loops of mirror need more than [fuel] tests. *)
From Verif Require Import Base Ordered SimModel.
Set Implicit Arguments.
Local Open Scope nat_scope.

Section Walk.
  Variable K : OFld.
  Variable fsqrt : K -> K.
  Local Notation "x + y" := (fadd K x y).
  Local Notation "x * y" := (fmul K x y).

  (** Arrays that numpy broadcasts against coordinates: a number, shape (c,), shape (r,2), shape (r,1) *)
  Inductive arr : Type := AScal (k : K) | AVec (v : list K) | AMat (rows : list (point K)) | ACol (rows : list K).
  Definition coord (p : point K) (c : bool) : K := if c then snd p else fst p.
  (** Length of the first axis, 1 if there is none *)
  Definition arr_rows (a : arr) : nat := match a with AScal _ | AVec _ => 1 | AMat l => length l | ACol l => length l end.
  (** The last axis is 1 or 2 *)
  Definition arr_fits (a : arr) : bool := match a with AVec v => (length v =? 1) || (length v =? 2) | _ => true end.
  (** Element of the array after broadcasting *)
  Definition row_of (n i : nat) : nat := if n =? 1 then 0 else i.
  Definition arr_at (a : arr) (i : nat) (c : bool) : K :=
    match a with
    | AScal k => k
    | AVec v => if length v =? 1 then nth 0 v (f0 K) else nth (if c then 1 else 0) v (f0 K)
    | AMat l => coord (nth (row_of (length l) i) l (f0 K, f0 K)) c
    | ACol l => nth (row_of (length l) i) l (f0 K)
    end.
  (** Product with a number *)
  Definition amul (a : arr) (k : K) : arr :=
    match a with
    | AScal x => AScal (x * k)
    | AVec v => AVec (map (fun x => x * k) v)
    | AMat l => AMat (map (fun p => (fst p * k, snd p * k)) l)
    | ACol l => ACol (map (fun x => x * k) l)
    end.
  (** Length of an axis after broadcasting *)
  Definition bdim (n m : nat) : res nat := if n =? m then Ok n else if m =? 1 then Ok n else if n =? 1 then Ok m else Raise ValueError.

  (** make_step, _sim_nb.py 42-45, a ufunc of (x, scale, velocity) where x has shape (n,2) *)
  Definition make_step (normals : nat -> bool -> K) (x : list (point K)) (scale velocity : arr) : res (list (point K)) :=
    if negb (arr_fits scale && arr_fits velocity) then Raise ValueError else
    let* n := bdim (length x) (arr_rows scale) in
    let* n := bdim n (arr_rows velocity) in
    let at_ (i : nat) (c : bool) := arr_at (AMat x) i c + normals i c * arr_at scale i c + arr_at velocity i c in
    Ok (map (fun i => (at_ i false, at_ i true)) (seq 0 n)).

  (** A float, an array or a callable *)
  Inductive given_as : Type := Fixed (a : arr) | Callable (f : list (point K) -> arr).
  (** Initial coordinates: shapes (n,2), (n,1), (n,m) with another m, (n,) *)
  Inductive start : Type := Points (l : list (point K)) | Column (l : list K) | Wide (n : nat) | Flat (n : nat).
  Definition start_len (x : start) : nat := match x with Points l => length l | Column l => length l | Wide n => n | Flat n => n end.

  (** The values _velocity and _scale of brownian_walk, sim.py 121-127, 139-145: a fixed velocity is
      multiplied by dt, the result of a callable is not *)
  Definition velocity_now (velocity : given_as) (dt : K) (x : list (point K)) : arr :=
    match velocity with Fixed a => amul a dt | Callable f => f x end.
  Definition scale_now (delta : given_as) (dt : K) (x : list (point K)) : arr :=
    match delta with Fixed a => amul a (fsqrt dt) | Callable f => amul (f x) (fsqrt dt) end.
  (** The loop, sim.py 136-148 *)
  Fixpoint walk_from (fuel : nat) (normals : nat -> nat -> bool -> K) (shape : K * K) (delta velocity : given_as) (dt : K) (i count : nat) (x : list (point K))
    : option (list (list (point K)) * option pyexc) :=
    match count with
    | O => Some ([], None)
    | S count =>
        match make_step (normals i) x (scale_now delta dt x) (velocity_now velocity dt x) with
        | Raise e => Some ([x], Some e)
        | Ok x' =>
            match mirror_points fuel shape x' with
            | None => None
            | Some x' => match walk_from fuel normals shape delta velocity dt (S i) count x' with Some (l, e) => Some (x :: l, e) | None => None end
            end
        end
    end.
  (** brownian_walk, sim.py 83-148; mirror(x, 0, shape) gives shape (n,1) two columns *)
  Definition walk (fuel : nat) (normals : nat -> nat -> bool -> K) (x0 : start) (count : nat) (shape : list K) (delta : given_as) (dt : K) (velocity : given_as)
    : option (list (list (point K)) * option pyexc) :=
    match x0 with
    | Flat _ => Some ([], Some ValueError)
    | _ =>
        match shape with
        | [h; w] =>
            let x := match x0 with Points l => Some l | Column l => Some (map (fun k => (k, k)) l) | _ => None end in
            match x with
            | None => Some ([], Some ValueError)
            | Some x => match mirror_points fuel (h, w) x with None => None | Some x => walk_from fuel normals (h, w) delta velocity dt 0 count x end
            end
        | _ => Some ([], Some ValueError)
        end
    end.

  (** v0 = np.zeros_like(x0); v0[:,:] = velocity, sim.py 188-189, with n = len(x0) *)
  Definition fill (x0 : start) (velocity : arr) : res arr :=
    let n := start_len x0 in
    let rows_ok := ((arr_rows velocity =? 1) || (arr_rows velocity =? n))%bool in
    match x0 with
    | Flat _ => Raise IndexError
    | Wide _ => Raise ValueError
    | Points _ => if (rows_ok && arr_fits velocity)%bool then Ok (AMat (map (fun i => (arr_at velocity i false, arr_at velocity i true)) (seq 0 n))) else Raise ValueError
    | Column _ =>
        if (rows_ok && match velocity with AMat _ => false | AVec v => length v =? 1 | _ => true end)%bool
        then Ok (ACol (map (fun i => arr_at velocity i false) (seq 0 n))) else Raise ValueError
    end.
  (** brownian_particles, sim.py 150-194; np.random.rand refuses a negative number.  A shape without two
      numbers is refused by np.array(shape) or by brownian_walk, both with ValueError *)
  Definition brownian_particles (fuel : nat) (uniform : nat -> bool -> K) (normals : nat -> nat -> bool -> K) (count : nat) (shape : list K) (num_particles : Z) (delta : given_as) (dt : K)
    (velocity : given_as) (x0 : option start) : option (list (list (point K)) * option pyexc) :=
    let x0 :=
      match x0 with
      | None =>
          if (num_particles <? 0)%Z then Raise ValueError else
          match shape with
          | [h; w] => Ok (Points (map (fun i => (uniform i false * h, uniform i true * w)) (seq 0 (Z.to_nat num_particles))))
          | _ => Raise ValueError
          end
      | Some x0 => if (Z.of_nat (start_len x0) =? num_particles)%Z then Ok x0 else Raise ValueError
      end in
    match x0 with
    | Raise e => Some ([], Some e)
    | Ok x0 =>
        match match velocity with Fixed a => match fill x0 a with Ok v => Ok (Fixed v) | Raise e => Raise e end | Callable f => Ok (Callable f) end with
        | Raise e => Some ([], Some e)
        | Ok v0 => walk fuel normals x0 count shape delta dt v0
        end
    end.

  (** random_time_count, sim.py 341-346: nframes, n natural numbers, n > 0.  Without frames the
      slice count[0:n] has one element, which n > 1 numbers do not fit *)
  Definition random_time_count (nframes n : nat) : res (list K) :=
    if (nframes * n + 1 <? n)%nat then Raise ValueError else
    let count := map (fun k => fdiv K (fdiv K (fnat K (nframes * n - k)%nat) (fnat K n)) (fnat K n)) (seq 0 (nframes * n + 1)%nat) in
    let count := map (fun p => if (fst p <? n)%nat then fdiv K (fnat K (fst p)) (fnat K n) * snd p else snd p) (combine (seq 0 (nframes * n + 1)%nat) count) in
    Ok match count with [] => [] | _ :: count => fnat K (nframes * n)%nat :: count end.
End Walk.
Arguments AScal {K}.
Arguments AVec {K}.
Arguments AMat {K}.
Arguments ACol {K}.
Arguments Fixed {K}.
Arguments Callable {K}.
Arguments Points {K}.
Arguments Column {K}.
Arguments Wide {K}.
Arguments Flat {K}.
