(** Model of sim.py and _sim_nb.py: triggers, particle videos, random times, the walk in the
    box, the ADC and drawing.

    Simplifications: coordinates and signals are exact elements of an ordered field; the casts
    float -> int are a function [trunc] of which only the rounding towards zero of non-negative
    values is used; random generators are oracles (any stream of outcomes); compiled functions
    are their Python text; frames returned by get_frame are an arbitrary function of the
    particle positions (drawing is modelled separately). *)
From Verif Require Import Base Ordered.
Set Implicit Arguments.
Local Open Scope Z_scope.

(* ------------------------------------------------------------------ *)
(** * data_trigger *)
(** sorted(set(indices)): insertion without repetition *)
Fixpoint insert_uniq (x : Z) (l : list Z) : list Z :=
  match l with
  | [] => [x]
  | y :: l' => if x <? y then x :: l else if x =? y then l else y :: insert_uniq x l'
  end.
Definition sorted_set (l : list Z) : list Z := fold_right insert_uniq [] l.
(** The loop, sim.py 298-304: [i] counts, [ii] is awaited, [t] are the indices still to be
    popped, next one first *)
Fixpoint trigger_loop (A : Type) (i ii : Z) (t : list Z) (data : list A) : list A :=
  match data with
  | [] => []
  | d :: data =>
      if i =? ii
      then d :: match t with [] => [] | ii' :: t' => trigger_loop (i + 1) ii' t' data end
      else trigger_loop (i + 1) ii t data
  end.
(** data_trigger, sim.py 280-304; the reversed list popped from the end is the sorted list *)
Definition data_trigger (A : Type) (data : list A) (indices : list Z) : res (list A) :=
  match sorted_set indices with
  | [] => Raise IndexError
  | ii :: t => Ok (trigger_loop 0 ii t data)
  end.

(* ------------------------------------------------------------------ *)
(** * particles_video *)
Section Particles.
  Variables P F : Type.
  (** get_frame(coordinate_transform(data, ..)) and get_frame(data) *)
  Variables frame1 frame2 : P -> F.
  (** i in t[:1] *)
  Definition due (i : Z) (t : list Z) : bool := match t with [] => false | a :: _ => i =? a end.
  (** The loop with t2, sim.py 259-272 *)
  Fixpoint dual_loop (i : Z) (particles : list P) (t1 t2 : list Z) (out1 out2 : option F) : list (F * F) :=
    match particles with
    | [] => []
    | data :: particles =>
        let out1 := if due i t1 then Some (frame1 data) else out1 in
        let t1 := if due i t1 then tl t1 else t1 in
        let out2 := if due i t2 then Some (frame2 data) else out2 in
        let t2 := if due i t2 then tl t2 else t2 in
        match out1, out2 with
        | Some o1, Some o2 => (o1, o2) :: dual_loop (i + 1) particles t1 t2 None None
        | _, _ => dual_loop (i + 1) particles t1 t2 out1 out2
        end
    end.
  (** The loop without t2, sim.py 259-263, 274-277 *)
  Fixpoint single_loop (i : Z) (particles : list P) (t1 : list Z) : list F :=
    match particles with
    | [] => []
    | data :: particles =>
        if due i t1 then frame1 data :: single_loop (i + 1) particles (tl t1)
        else single_loop (i + 1) particles t1
    end.
  Definition particles_video_dual (particles : list P) (t1 t2 : list Z) : list (F * F) := dual_loop 0 particles t1 t2 None None.
  Definition particles_video_single (particles : list P) (t1 : list Z) : list F := single_loop 0 particles t1.
End Particles.

(** _inspect_frame_dtype, sim.py 23-29, for a scalar intensity; [DOther] is any other dtype *)
Inductive fdtype : Type := DUint8 | DUint16 | DOther.
Definition fdtype_eqb (a b : fdtype) : bool := match a, b with DUint8, DUint8 | DUint16, DUint16 | DOther, DOther => true | _, _ => false end.
Definition _inspect_frame_dtype (dtype : fdtype) (intensity : Z) : res fdtype :=
  if fdtype_eqb dtype DOther then Raise ValueError
  else if ((intensity >? 255) && negb (fdtype_eqb dtype DUint16) || (intensity <? 0))%bool then Raise ValueError
  else Ok dtype.

(* ------------------------------------------------------------------ *)
(** * Random trigger times *)
(** np.random.randint(low, high): [raw] is the outcome of the generator before it is brought
    into the range *)
Definition randint (low high : Z) (raw : Z) : res Z := if low <? high then Ok (low + raw mod (high - low)) else Raise ValueError.
(** create_random_time, sim.py 332-339: [raw i] is the i-th outcome *)
Fixpoint random_time_loop (n dt_min : Z) (raw : nat -> Z) (i frames : nat) (r1 : Z) : res (list Z) :=
  match frames with
  | O => Ok []
  | S frames =>
      let* r1 := randint (Z.max 0 (dt_min - n + r1)) n (raw i) in
      let* rest := random_time_loop n dt_min raw (S i) frames r1 in
      Ok (Z.of_nat i * n + r1 :: rest)
  end.
Definition create_random_time (nframes : nat) (n dt_min : Z) (raw : nat -> Z) : res (list Z) := random_time_loop n dt_min raw 0 nframes 0.
(** np.random.randint(n, size = size) *)
Definition randints (n : Z) (size : nat) (raw : nat -> Z) : res (list Z) :=
  if 0 <? n then Ok (map (fun i => raw i mod n) (seq 0 size)) else Raise ValueError.
(** create_random_times1, sim.py 348-356: [raw1], [raw2] are the outcomes of the two generators *)
Definition create_random_times1 (nframes : nat) (n : Z) (raw1 raw2 : nat -> Z) : res (list Z * list Z) :=
  let iperiod := n * 2 in
  let t0 := map (fun i => Z.of_nat i * iperiod) (seq 0 nframes) in
  let* r1 := randints n nframes raw1 in
  if 2 * n =? 0 then Raise ZeroDivisionError else
  let r1 := map (fun r => r * (iperiod / (2 * n))) r1 in
  let* r2 := randints 2 nframes raw2 in
  let r2 := map (fun r => r * (iperiod / 2)) r2 in
  Ok (map (fun p => fst p + snd p) (combine t0 r1), map (fun p => fst p + snd p) (combine t0 r2)).
(** create_random_times2, sim.py 358-368 *)
Definition create_random_times2 (nframes : nat) (n : Z) (raw1 raw2 raw3 : nat -> Z) : res (list Z * list Z) :=
  let* t := create_random_times1 nframes n raw1 raw2 in
  let* r := randints (2 * n) nframes raw3 in
  let mask := map (fun x => x =? 0) r in
  Ok (fst t, map (fun p => if fst p : bool then fst (snd p) else snd (snd p)) (combine mask (combine (fst t) (snd t)))).
(** simple_brownian_video, sim.py 370-411: the number of simulated steps, then particles_video;
    t.max() of an empty array raises ValueError *)
Definition zmax (l : list Z) : res Z := match l with [] => Raise ValueError | x :: l => Ok (fold_left Z.max l x) end.
Definition simple_brownian_video (P F : Type) (frame1 frame2 : P -> F) (walk : nat -> P) (t1 t2 : list Z) : res (list (F * F)) :=
  let* m1 := zmax t1 in
  let* m2 := zmax t2 in
  Ok (particles_video_dual frame1 frame2 (map walk (seq 0 (Z.to_nat (Z.max m1 m2 + 1)))) t1 t2).

(* ------------------------------------------------------------------ *)
(** * mirror, brownian_walk, coordinate_transform *)
Section Walk.
  Variable K : OFld.
  Local Notation "x + y" := (fadd K x y).
  Local Notation "x - y" := (fsub K x y).
  Local Notation "x * y" := (fmul K x y).
  (** mirror, _sim_nb.py 16-33.  The while loop makes at most [fuel] tests; None: not finished *)
  Fixpoint mirror_loop (fuel : nat) (x x0 x1 : K) : option K :=
    match fuel with
    | O => None
    | S fuel =>
        if flt K x x0 then mirror_loop fuel (x1 + x - x0) x0 x1
        else if negb (flt K x x1) then mirror_loop fuel (x0 + x - x1) x0 x1
        else Some x
    end.
  Definition feqb (x y : K) : bool := (negb (flt K x y) && negb (flt K y x))%bool.
  Definition mirror (fuel : nat) (x x0 x1 : K) : option K := if feqb x0 x1 then Some x else mirror_loop fuel x x0 x1.
  (** mirror(x, 0, shape) for coordinates of particles *)
  Definition point : Type := (K * K)%type.
  Definition mirror_point (fuel : nat) (shape : K * K) (p : point) : option point :=
    match mirror fuel (fst p) (f0 K) (fst shape), mirror fuel (snd p) (f0 K) (snd shape) with
    | Some a, Some b => Some (a, b)
    | _, _ => None
    end.
  Fixpoint mirror_points (fuel : nat) (shape : K * K) (x : list point) : option (list point) :=
    match x with
    | [] => Some []
    | p :: x => match mirror_point fuel shape p, mirror_points fuel shape x with Some p, Some x => Some (p :: x) | _, _ => None end
    end.
  (** brownian_walk, sim.py 83-148: [step i x] is make_step(x, _scale, _velocity) with whatever
      delta, velocity and the random generator give in step i *)
  Fixpoint walk_loop (fuel : nat) (shape : K * K) (step : nat -> list point -> list point) (i count : nat) (x : list point) : option (list (list point)) :=
    match count with
    | O => Some []
    | S count =>
        match mirror_points fuel shape (step i x) with
        | Some x' => match walk_loop fuel shape step (S i) count x' with Some l => Some (x :: l) | None => None end
        | None => None
        end
    end.
  Definition brownian_walk (fuel : nat) (x0 : list point) (count : nat) (shape : K * K) (step : nat -> list point -> list point) : option (list (list point)) :=
    match mirror_points fuel shape x0 with Some x => walk_loop fuel shape step 0 count x | None => None end.
  (** _coordinate_rotate, sim.py 497-505: [rotation] is (cos, sin) of the angle *)
  Definition rotate (rotation : option (K * K)) (p : point) : point :=
    match rotation with
    | None => p
    | Some (c, s) => (c * fst p - s * snd p, s * fst p + c * snd p)
    end.
  Definition padd (p q : point) : point := (fst p + fst q, snd p + snd q).
  Definition psub (p q : point) : point := (fst p - fst q, snd p - snd q).
  (** coordinate_transform, sim.py 460-495, up to the final mirror *)
  Definition frame_center (shape : K * K) : point := (fdiv K (fst shape) (fnat K 2), fdiv K (snd shape) (fnat K 2)).
  Definition transform (shape : K * K) (offset : option point) (rotation : option (K * K)) (p : point) : point :=
    let rotation_offset := psub (frame_center shape) (rotate rotation (frame_center shape)) in
    let offset := match offset with None => rotation_offset | Some o => padd o rotation_offset end in
    padd (rotate rotation p) offset.
  Definition coordinate_transform (fuel : nat) (shape : K * K) (offset : option point) (rotation : option (K * K)) (data : list point) : option (list point) :=
    mirror_points fuel shape (map (transform shape offset rotation) data).
End Walk.

(* ------------------------------------------------------------------ *)
(** * The ADC *)
Section ADC.
  Variable K : OFld.
  Variable trunc : K -> nat.
  (** adc_clean, _sim_nb.py 87-94 *)
  Definition adc_clean (frame saturation black_level : K) (maxv : nat) : nat :=
    let out := fmul K (fdiv K (fsub K frame black_level) saturation) (fnat K maxv) in
    if flt K out (f0 K) then 0%nat
    else if flt K (fnat K maxv) out then maxv
    else trunc out.
  (** _adc_scale, _sim_nb.py 66-71 *)
  Definition _adc_scale (frame saturation black_level : K) : K :=
    let out := fdiv K (fsub K frame black_level) saturation in
    if flt K out (f0 K) then f0 K else out.
  (** adc_8bit .. adc_16bit, _sim_nb.py 96-124: [bits] is 8, 10, 12, 14 or 16 *)
  Definition adc_bits (bits : nat) (frame scale black_level : K) : nat :=
    let out := _adc_scale frame scale black_level in
    if flt K out (f1 K) then trunc (fmul K out (fnat K (2 ^ bits))) else (2 ^ bits - 1)%nat.
  (** adc, sim.py 414-458, with noise_model "none" and bit_depth "<bits>bit", bits <= 16;
      the noisy models replace the frame by a random one *)
  Inductive noise_model : Type := NGaussian | NPoisson | NNone | NOther.
  Definition adc (noise : K -> K) (frame : list K) (saturation black_level : K) (bits : nat) (model : noise_model) : res (list nat) :=
    match model with
    | NOther => Raise ValueError
    | NNone => Ok (map (fun x => adc_clean x saturation black_level (2 ^ bits - 1)) frame)
    | _ => Ok (map (fun x => adc_clean (noise x) saturation black_level (2 ^ bits - 1)) frame)
    end.
End ADC.

(* ------------------------------------------------------------------ *)
(** * Drawing *)
(** A frame of unsigned integers below [top] (256 or 65536); stores wrap around.  Indexing an
    array in compiled code: negative indices count from the end, others outside are not checked *)
Definition image : Type := list (list Z).
Definition pixel (im : image) (i j : Z) : res (nat * nat) :=
  match py_index (length im) i with
  | None => Raise OutOfBounds
  | Some a => match py_index (length (nth a im [])) j with None => Raise OutOfBounds | Some b => Ok (a, b) end
  end.
(** im[i,j] = im[i,j] + p *)
Definition add_pixel (top : Z) (im : image) (i j p : Z) : res image :=
  let* ab := pixel im i j in
  let '(a, b) := ab in
  Ok (upd im a (upd (nth a im []) b ((nth b (nth a im []) 0 + p) mod top))).
(** draw_points, _sim_nb.py 55-64: [points] are the coordinates after int() *)
Fixpoint draw_points_loop (top : Z) (im : image) (points : list (Z * Z)) (intensity : list Z) : res image :=
  match points, intensity with
  | (i, j) :: points, v :: intensity => let* im := add_pixel top im i j v in draw_points_loop top im points intensity
  | _, _ => Ok im
  end.
Definition draw_points (top : Z) (im : image) (points : list (Z * Z)) (intensity : list Z) : res image :=
  if (length points =? length intensity)%nat then draw_points_loop top im points intensity else Raise AssertionError.
(** The index computations of draw_psf, _sim_nb.py 146-158 *)
Definition wrap_index (i0 n : Z) : Z := if i0 >=? n then i0 - n else if i0 <? 0 then n + i0 else i0.
Definition zrange (a b : Z) : list Z := map (fun k => a + Z.of_nat k) (seq 0 (Z.to_nat (b - a))).
(** draw_psf, _sim_nb.py 127-159: [points] after int(), [psf k i0 j0] is psf_gauss of particle
    k at the pixel (i0, j0), [size] is round(3*sigma.max()) *)
Definition draw_one (top : Z) (psf : Z -> Z -> Z) (size h w : Z) (im : image) : res image :=
  let height := Z.of_nat (length im) in
  let width := Z.of_nat (length (nth 0 im [])) in
  fold_left (fun r i0 => fold_left (fun r j0 => let* im := r in add_pixel top im (wrap_index i0 height) (wrap_index j0 width) (psf i0 j0))
                                   (zrange (w - size) (w + size + 1)) r)
            (zrange (h - size) (h + size + 1)) (Ok im).
Fixpoint draw_psf (top : Z) (psf : nat -> Z -> Z -> Z) (size : Z) (k : nat) (points : list (Z * Z)) (im : image) : res image :=
  match points with
  | [] => Ok im
  | (h, w) :: points => let* im := draw_one top (psf k) size h w im in draw_psf top psf size (S k) points im
  end.
(** With NUMBA_PARALLEL the particles are drawn by several threads (nb.prange); im[i,j] =
    im[i,j] + p is a read followed by a write.  One pixel, each thread adding its value:
    what a thread has read, if anything, and the value it adds *)
Record race : Type := Race { r_pixel : Z; r_todo : list (option Z * Z) }.
Inductive race_step (top : Z) : race -> race -> Prop :=
| RRead v before p after : race_step top (Race v (before ++ (None, p) :: after)) (Race v (before ++ (Some v, p) :: after))
| RWrite v before x p after : race_step top (Race v (before ++ (Some x, p) :: after)) (Race ((x + p) mod top) (before ++ after)).
