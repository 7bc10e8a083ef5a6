(** Model of the selection of wave vectors, map.py 40-343 and 558-671: sector maps, coordinates of
    the transformed data and k_select.

    Simplifications: numbers are elements of an ordered field ([pi] stands for np.pi, [floor] for
    the floor function that float % and np.arange need); sqrt(x**2 + y**2) and arctan2 are the
    parameters [hyp] and [arg]; kmap and anglemap have one shape (no broadcasting); the data of a
    pixel (its time series) is one value of type [A] averaged by [mean] (np.nanmean); leading axes of
    the data are left out; the entries of k are integers (int(round(k)) applied beforehand). *)
From Verif Require Import Base Ordered MapModel.
Set Implicit Arguments.

Section Sector.
  Variable K : OFld.
  Local Notation "0" := (f0 K).
  Local Notation "1" := (f1 K).
  Local Infix "+" := (fadd K).
  Local Infix "*" := (fmul K).
  Local Infix "-" := (fsub K).
  Local Infix "/" := (fdiv K).
  Local Notation "- x" := (fopp K x).
  Variable pi : K.
  Variable floor : K -> Z.

  (** An integer as a number *)
  Definition fZ (z : Z) : K := match z with Z0 => 0 | Zpos p => fnat K (Pos.to_nat p) | Zneg p => - fnat K (Pos.to_nat p) end.
  (** x % m for floats: x - floor(x / m) * m *)
  Definition pymod (x m : K) : K := x - fZ (floor (x / m)) * m.
  Definition fleb (x y : K) : bool := negb (flt K y x).

  (** Whether angle [a] is selected, map.py 74-92 with m = pi/2 and 136-154 with m = pi *)
  Definition in_sector (m angle sector a : K) : bool :=
    let high := pi / fZ 180 * (angle + sector / fZ 2) in
    let low := pi / fZ 180 * (angle - sector / fZ 2) in
    if flt K m high then
      let '(low, high) := (pymod high (- m), low) in
      negb (fleb a high && flt K low a)
    else if flt K low (- m) then
      let '(high, low) := (pymod low m, high) in
      negb (fleb a high && flt K low a)
    else (flt K a high && fleb low a).

  (** kmap.max() *)
  Definition all_entries {A} (x : mat A) : list A := flat_map (fun i => map (mat_at x i) (seq 0 (mw x))) (seq 0 (mh x)).
  Definition max_entry (x : mat K) : res K :=
    match all_entries x with [] => Raise ValueError | v :: l => Ok (fold_left (fun m v => if flt K m v then v else m) l v) end.

  (** np.arange(0, stop, step): ceil(stop / step) values *)
  Definition np_arange (stop step : K) : res (list K) :=
    if negb (flt K step 0) && negb (flt K 0 step) then Raise ZeroDivisionError
    else Ok (map (fun i => fnat K i * step) (seq 0 (Z.to_nat (Z.opp (floor (- (stop / step))))))).

  (** The loop over the rings, map.py 94-97 and 156-159, at one entry with length [kv] that is inside the sector or not *)
  Definition ring_index (kstep : K) (ks : list K) (kv : K) (inside : bool) : Z :=
    snd (fold_left (fun (s : Z * Z) k =>
      let (i, out) := s in
      let kmask := fleb kv (k + kstep / fZ 2) && flt K (k - kstep / fZ 2) kv in
      ((i + 1)%Z, if kmask && inside then i else out)) ks (0%Z, (-1)%Z)).

  (** fft2_sector_indexmap, map.py 103-162 *)
  Definition fft2_sector_indexmap (kmap anglemap : mat K) (angle sector kstep : K) : res (mat Z) :=
    if flt K angle (- fZ 180) || flt K (fZ 180) angle then Raise ValueError
    else if fleb sector 0 || flt K (fZ 180) sector then Raise ValueError
    else
      let* kmax := max_entry kmap in
      let* ks := np_arange (kmax + kstep) kstep in
      if negb ((mh kmap =? mh anglemap) && (mw kmap =? mw anglemap))%nat then Raise ValueError
      else Ok (Mat (mh kmap) (mw kmap) (fun i j =>
             if ((i =? 0) && (j =? 0))%nat then 0%Z
             else ring_index kstep ks (mat_at kmap i j) (in_sector pi angle sector (mat_at anglemap i j)))).

  (** sector_indexmap, map.py 40-101 (deprecated, half-plane data) *)
  Definition sector_indexmap (kmap anglemap : mat K) (angle sector kstep : K) : res (mat Z) :=
    if flt K angle (- fZ 90) || flt K (fZ 90) angle then Raise ValueError
    else if fleb sector 0 || flt K (fZ 180) sector then Raise ValueError
    else
      let* kmax := max_entry kmap in
      let* ks := np_arange (kmax + kstep) kstep in
      if negb ((mh kmap =? mh anglemap) && (mw kmap =? mw anglemap))%nat then Raise ValueError
      else
        let half := Nat.add (Nat.div (mh kmap) 2) 1 in
        Ok (Mat (mh kmap) (mw kmap) (fun i j =>
             if ((i =? 0) && (j =? 0))%nat then 0%Z
             else if ((half <=? i) && (j =? 0))%nat then (-1)%Z
             else ring_index kstep ks (mat_at kmap i j) (in_sector (pi / fZ 2) angle sector (mat_at anglemap i j)))).

  (** _get_steps_size_half, map.py 164-184: ((kisize, kistep), (kjsize, kjstep)); width / height of zero height is a ZeroDivisionError *)
  Definition _get_steps_size_half (kisize kjsize : option Z) (shape : option (Z * Z)) : res ((Z * K) * (Z * K)) :=
    let '(height, width) := match shape with None => (1%Z, 1%Z) | Some s => s end in
    let* kjsize := match kjsize with Some k => Ok k | None => match shape with None => Raise ValueError | Some _ => Ok (width / 2 + 1)%Z end end in
    let* kisize := match kisize with Some k => Ok k | None => match shape with None => Raise ValueError | Some _ => Ok height end end in
    if (height >? width)%Z then
      if (width =? 0)%Z then Raise ZeroDivisionError else Ok ((kisize, 1), (kjsize, fZ height / fZ width))
    else
      if (height =? 0)%Z then Raise ZeroDivisionError else Ok ((kisize, fZ width / fZ height), (kjsize, 1)).

  (** _get_steps_size_full, map.py 186-191 *)
  Definition _get_steps_size_full (kisize kjsize : option Z) (shape : option (Z * Z)) : res ((Z * K) * (Z * K)) :=
    let* kjsize := match kjsize with Some k => Ok k | None => match shape with None => Raise ValueError | Some (_, w) => Ok w end end in
    _get_steps_size_half kisize (Some kjsize) shape.

  (** np.fft.fftfreq(n) * n: 0, 1, ..., (n-1)//2, -(n//2), ..., -1 *)
  Definition fftfreq (n : nat) (i : nat) : Z :=
    if (i <=? Nat.div (Nat.sub n 1) 2)%nat then Z.of_nat i else (Z.of_nat i - Z.of_nat n)%Z.

  (** np.fft.fftfreq(n) raises for n = 0 and negative n *)
  Definition freq_axis (n : Z) (step : K) : res (nat * (nat -> K)) :=
    if (n =? 0)%Z then Raise ZeroDivisionError
    else if (n <? 0)%Z then Raise ValueError
    else Ok (Z.to_nat n, fun i => fZ (fftfreq (Z.to_nat n) i) * step).
  (** np.arange(n) * step *)
  Definition half_axis (n : Z) (step : K) : res (nat * (nat -> K)) := Ok (Z.to_nat n, fun j => fnat K j * step).

  (** np.meshgrid(ki, kj, indexing = "ij") *)
  Definition meshgrid (ki kj : nat * (nat -> K)) : mat K * mat K :=
    (Mat (fst ki) (fst kj) (fun i _ => snd ki i), Mat (fst ki) (fst kj) (fun _ j => snd kj j)).

  (** rfft2_grid, fft2_grid: map.py 240-292 *)
  Definition rfft2_grid (kisize kjsize : option Z) (shape : option (Z * Z)) : res (mat K * mat K) :=
    let* ((hi, si), (wj, sj)) := _get_steps_size_half kisize kjsize shape in
    let* ki := freq_axis hi si in
    let* kj := half_axis wj sj in
    Ok (meshgrid ki kj).
  Definition fft2_grid (kisize kjsize : option Z) (shape : option (Z * Z)) : res (mat K * mat K) :=
    let* ((hi, si), (wj, sj)) := _get_steps_size_full kisize kjsize shape in
    let* ki := freq_axis hi si in
    let* kj := freq_axis wj sj in
    Ok (meshgrid ki kj).

  Variable hyp arg : K -> K -> K.
  (** _kangle, map.py 193-196: sqrt(x**2 + y**2) and arctan2(-y, x) with y = ki, x = kj *)
  Definition _kangle (g : mat K * mat K) : mat K * mat K :=
    let '(ki, kj) := g in
    (Mat (mh ki) (mw ki) (fun i j => hyp (mat_at kj i j) (mat_at ki i j)), Mat (mh ki) (mw ki) (fun i j => arg (- mat_at ki i j) (mat_at kj i j))).
  (** rfft2_kangle, fft2_kangle: map.py 198-238 *)
  Definition rfft2_kangle kisize kjsize shape : res (mat K * mat K) := let* g := rfft2_grid kisize kjsize shape in Ok (_kangle g).
  Definition fft2_kangle kisize kjsize shape : res (mat K * mat K) := let* g := fft2_grid kisize kjsize shape in Ok (_kangle g).

  (** fft2_k_indexmap, map.py 558-591 *)
  Definition fft2_k_indexmap (kisize kjsize : Z) (angle sector kstep : K) (shape : option (Z * Z)) (mode : fftmode) : res (mat Z) :=
    let* (kisize, kjsize) := match mode with Rfft2 => as_fft2_shape (Some kisize) (Some kjsize) shape | _ => Ok (kisize, kjsize) end in
    let* (kmap, anglemap) := fft2_kangle (Some kisize) (Some kjsize) shape in
    fft2_sector_indexmap kmap anglemap angle sector kstep.

  (* -------------------------------------------------------------- *)
  (** * k_select *)
  (** a & b for boolean arrays; axes of length 1 are broadcast *)
  Definition mat_and (a b : mat bool) : res (mat bool) :=
    if (((mh a =? mh b) || (mh a =? 1) || (mh b =? 1)) && ((mw a =? mw b) || (mw a =? 1) || (mw b =? 1)))%nat%bool then
      Ok (Mat (if (mh a =? 1)%nat then mh b else mh a) (if (mw a =? 1)%nat then mw b else mw a)
            (fun i j => mat_at a (spread (mh a) i) (spread (mw a) j) && mat_at b (spread (mh b) i) (spread (mw b) j)))
    else Raise ValueError.
  (** x[mask] for arrays of one shape, in row order; otherwise an IndexError *)
  Definition select {A} (x : list A) (mask : list bool) : list A := map fst (filter snd (combine x mask)).
  Definition mat_select {A} (x : mat A) (mask : mat bool) : res (list A) :=
    if ((mh x =? mh mask) && (mw x =? mw mask))%nat%bool then Ok (select (all_entries x) (all_entries mask)) else Raise IndexError.
  (** x[mask] for lists *)
  Definition list_select {A} (x : list A) (mask : list bool) : res (list A) :=
    if (length x =? length mask)%nat then Ok (select x mask) else Raise IndexError.

  Variable A : Type.
  Variable cj : A -> A.
  Variable mean : list A -> A.
  Variable kmean : list K -> K.

  (** Correlation data: all pixels, or only those of a mask, in row order *)
  Inductive kdata := Full (x : mat A) | Masked (l : list A).

  (** data[..., mask, :] with the mask made one-dimensional by mask[computed_mask] if the data is masked.
      Unmasked data of another shape than the mask is treated as masked data by the code; the index does not fit its axis. *)
  Definition data_select (data : kdata) (mask : mat bool) (computed : option (mat bool)) (masked_data : bool) : res (list A) :=
    match data, masked_data, computed with
    | Full x, false, _ => mat_select x mask
    | Masked l, true, Some c => let* m := mat_select mask c in list_select l m
    | _, _, _ => Raise IndexError
    end.

  (** _k_select_complex, map.py 294-308 *)
  Definition _k_select_complex (data : kdata) (k : Z) (indexmap : mat Z) (kmap : mat K) (computed : option (mat bool)) (masked_data : bool) : res (option (K * A)) :=
    let mask := Mat (mh indexmap) (mw indexmap) (fun i j => (mat_at indexmap i j =? k)%Z) in
    let* mask := match computed with Some c => mat_and mask c | None => Ok mask end in
    let* ks := mat_select kmap mask in
    let* sel := if masked_data then match computed with Some c => let* _ := mat_select mask c in Ok tt | None => Ok tt end else Ok tt in
    match ks with
    | [] => Ok None
    | _ => let* d := data_select data mask computed masked_data in Ok (Some (kmean ks, mean d))
    end.

  (** _k_select_real, map.py 310-334.  Note that line 314 takes the conjugate half plane of the mask that
      line 313 has already reduced to the half plane. *)
  Definition _k_select_real (data : kdata) (k : Z) (indexmap : mat Z) (kmap : mat K) (computed : option (mat bool)) (masked_data : bool) : res (option (K * A)) :=
    let mask := Mat (mh indexmap) (mw indexmap) (fun i j => (mat_at indexmap i j =? k)%Z) in
    let* ks := mat_select kmap mask in
    let* mask := as_rfft2_mask mask in
    let* conj_mask := as_rfft2_conj false mask in
    let* (mask, conj_mask) := match computed with
      | Some c => let* mask := mat_and mask c in let* conj_mask := mat_and conj_mask c in Ok (mask, conj_mask)
      | None => Ok (mask, conj_mask)
      end in
    let* flags := match masked_data, computed with
      | true, Some c => let* m := mat_select mask c in let* cm := mat_select conj_mask c in Ok (fun tt : unit => list_select cm m)
      | _, _ => Ok (fun tt : unit => mat_select conj_mask mask)
      end in
    match ks with
    | [] => Ok None
    | _ =>
        let* flags := flags tt in
        let* d := data_select data mask computed masked_data in
        Ok (Some (kmean ks, mean (map (fun p : A * bool => if snd p then cj (fst p) else fst p) (combine d flags))))
    end.

  (** The argument k of k_select *)
  Inductive karg := KNone | KScalar (k : Z) | KList (l : list Z).
  Inductive kout := Single (r : option (K * A)) | Many (l : list (K * A)).

  Fixpoint collect (f : Z -> res (option (K * A))) (l : list Z) : res (list (K * A)) :=
    match l with
    | [] => Ok []
    | k :: l => let* r := f k in let* rs := collect f l in Ok (match r with Some d => d :: rs | None => rs end)
    end.

  (** k_select, map.py 606-671.  In line 671 the argument masked_data is missing: a TypeError. *)
  Definition k_select (data : kdata) (angle sector kstep : K) (k : karg) (shape : option (Z * Z)) (mask : option (mat bool)) (rfft2_mode : bool) : res kout :=
    if negb (flt K 0 sector) then Raise AssertionError
    else
      let* (kisize, kjsize, masked_data) :=
        match mask, data with
        | Some m, Full x => Ok (mh m, mw m, negb ((mh x =? mh m) && (mw x =? mw m))%nat)
        | Some m, Masked _ => Ok (mh m, mw m, true)
        | None, Full x => Ok (mh x, mw x, false)
        | None, Masked _ => Raise ValueError
        end in
      let* (kisize, kjsize) := if rfft2_mode then as_fft2_shape (Some (Z.of_nat kisize)) (Some (Z.of_nat kjsize)) shape else Ok (Z.of_nat kisize, Z.of_nat kjsize) in
      let* (kmap, anglemap) := fft2_kangle (Some kisize) (Some kjsize) shape in
      let* indexmap := fft2_sector_indexmap kmap anglemap angle sector kstep in
      let _k_select := if rfft2_mode then _k_select_real else _k_select_complex in
      match k with
      | KNone =>
          let kdim := (fold_left Z.max (all_entries indexmap) (-1) + 1)%Z in
          let* l := collect (fun kk => _k_select data kk indexmap kmap mask masked_data) (arange (Z.to_nat kdim)) in Ok (Many l)
      | KList l => let* l := collect (fun kk => _k_select data kk indexmap kmap mask masked_data) l in Ok (Many l)
      | KScalar _ => Raise TypeError
      end.
End Sector.
