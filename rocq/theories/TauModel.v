(** Model of the tables of pair times of cddm/_core_nb.py 740-811: the times of
    the pairs of each delay, and the counts of pairs of such times.  A numpy
    array of shape (n, w) is a list of n rows of w integers. *)
From Verif Require Import Base Kernels.
Set Implicit Arguments.

(** The table being filled and the number of entries written in each row. *)
Definition filling : Type := (list (list Z) * list nat)%type.

(** [i = count[m]; if i < tab.shape[1]: tab[m,i] = v; count[m] += 1]
    _core_nb.py 754-757, 760-763, 774-777.  Compiled code does not check m
    against the number of rows: such an access is [OutOfBounds]. *)
Definition put (w : nat) (s : filling) (m : nat) (v : Z) : res filling :=
  match nth_error (fst s) m, nth_error (snd s) m with
  | Some row, Some i =>
      if (i <? w)%nat then Ok (upd (fst s) m (upd row i v), upd (snd s) m (i + 1)%nat) else Ok s
  | _, _ => Raise OutOfBounds
  end.

(** cross_tau_times, _core_nb.py 740-763; [w], [w'] are the widths of tpos and
    tneg.  The second assertion of the code (line 743) compares tpos.shape with
    itself, so it never fails. *)
Definition cross_tau_times (t1 t2 : list Z) (w : nat) (tpos : list (list Z)) (w' : nat) (tneg : list (list Z))
  : res (list (list Z) * list (list Z)) :=
  if negb (length t1 =? length t2)%nat then Raise AssertionError else
  let count_pos := repeat 0%nat (length tpos) in
  let count_neg := repeat 0%nat (length tneg) in
  let* (p, q) :=
    for_range 0 (length t1) (fun ii r =>
      for_range 0 (length t2) (fun jj r =>
        let* (p, q) := r in
        let m := (nth ii t1 0 - nth jj t2 0)%Z in
        if (Z.abs m <? Z.of_nat (length tpos))%Z then
          (if (0 <=? m)%Z
           then let* p := put w p (Z.to_nat m) (nth ii t1 0%Z) in Ok (p, q)
           else let* q := put w' q (Z.to_nat (- m)) (nth ii t1 0%Z) in Ok (p, q))
        else Ok (p, q)) r)
      (Ok ((tpos, count_pos), (tneg, count_neg))) in
  Ok (fst p, fst q).

(** auto_tau_times, _core_nb.py 765-777 *)
Definition auto_tau_times (t : list Z) (w : nat) (tpos : list (list Z)) : res (list (list Z)) :=
  let count_pos := repeat 0%nat (length tpos) in
  let* p :=
    for_range 0 (length t) (fun ii r =>
      for_range ii (length t) (fun jj r =>
        let* p := r in
        let m := (nth jj t 0 - nth ii t 0)%Z in
        if negb (0 <=? m)%Z then Raise AssertionError else
        if (m <? Z.of_nat (length tpos))%Z then put w p (Z.to_nat m) (nth ii t 0%Z) else Ok p) r)
      (Ok (tpos, count_pos)) in
  Ok (fst p).

(** [np.empty((n, len(t)//period * 2), int)] filled with -1, _core_nb.py 781-784, 800-801 *)
Definition table_width (len : nat) (period : Z) : res nat :=
  if (period =? 0)%Z then Raise ZeroDivisionError else
  let w := (Z.of_nat len / period * 2)%Z in
  if (w <? 0)%Z then Raise ValueError else Ok (Z.to_nat w).
Definition minus_ones (n w : nat) : list (list Z) := repeat (repeat (-1)%Z w) n.

(** [mask = pos[i] > 0; pos[i,mask]], _core_nb.py 791-796, 808-809 *)
Definition positive (row : list Z) : list Z := filter (fun x => 0 <? x)%Z row.

(** cross_count_mixed, _core_nb.py 780-797 *)
Definition cross_count_mixed (t1 t2 : list Z) (n : nat) (period : Z)
  : res (list (list nat) * list (list nat) * list (list nat)) :=
  let* w := table_width (length t1) period in
  let* (pos, neg) := cross_tau_times t1 t2 w (minus_ones n w) w (minus_ones n w) in
  let zeros := repeat 0%nat (2 * n) in
  Ok (map (fun i => _add_count_cross (positive (nth i pos [])) (positive (nth i pos [])) zeros) (seq 0 n),
      map (fun i => _add_count_cross (positive (nth i neg [])) (positive (nth i neg [])) zeros) (seq 0 n),
      map (fun i => _add_count_cross (positive (nth i pos [])) (positive (nth i neg [])) zeros) (seq 0 n)).

(** auto_count_mixed, _core_nb.py 799-811 *)
Definition auto_count_mixed (t : list Z) (n : nat) (period : Z) : res (list (list nat)) :=
  let* w := table_width (length t) period in
  let* pos := auto_tau_times t w (minus_ones n w) in
  let zeros := repeat 0%nat (2 * n) in
  Ok (map (fun i => _add_count_cross (positive (nth i pos [])) (positive (nth i pos [])) zeros) (seq 0 n)).
