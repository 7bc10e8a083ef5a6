(** C91: the form factor of a spot. *)
From Coq Require Import Reals Lra ZifyNat.
From Verif Require Import Base Ordered Examples NormModel FftModel FftProofs VideoModel MapModel MapProofs Fft2Model Fft2Proofs SimModel SimProofs3 Prop_Sim Prop_Count Prop_Dls FftReals Prop_AvgReals SpectrumModel.
Set Implicit Arguments.

Lemma nth_repeat_lt A (x d : A) n i : i < n -> nth i (repeat x n) d = x.
Proof. revert i. induction n as [|n IH]; intros i H; [lia|]. destruct i; [reflexivity|]. apply IH. lia. Qed.

Section Form.
  Variable K : OFld.
  Add Field Kform : (flaw K).
  Notation C := (Cx K).
  Variable W : nat -> C.
  Variable root : K -> K.
  Variable psf : nat -> nat -> Z -> Z -> Z.

  (** The pixel (r, c) of the frame with a spot at the mesh point (i, j): what wraps onto it, modulo the
      range of the type *)
  Definition drawn (window : mat K) (top size : Z) (navg i j r c : nat) : Z :=
    let y := Z.of_nat (i * mh window / navg) in let x := Z.of_nat (j * mw window / navg) in
    (zsum (zrange (y - size) (y + size + 1)) (fun i0 => zsum (zrange (x - size) (x + size + 1)) (fun j0 =>
      if (i0 mod Z.of_nat (mh window) =? Z.of_nat r) && (j0 mod Z.of_nat (mw window) =? Z.of_nat c) then psf i j i0 j0 else 0)) mod top)%Z.
  (** The transform of that frame multiplied with the window *)
  Definition transformed (window : mat K) (top size : Z) (navg i j : nat) : nat -> nat -> C :=
    dft2_at W (Mat (mh window) (mw window) (fun r c => cofre (fmul K (fnat K (Z.to_nat (drawn window top size navg i j r c))) (mat_at window r c)))).
  Definition columns (mode : plane) (w : nat) : nat := match mode with PRfft2 => w / 2 + 1 | _ => w end.
  (** Mean over the mesh *)
  Definition mesh_mean (navg : nat) (f : nat -> nat -> K) : K :=
    fdiv K (Sum (fmon K) (seq 0 navg) (fun i => Sum (fmon K) (seq 0 navg) (f i))) (fnat K (navg * navg)).

  Lemma cnorm2_conj (z : C) : cnorm2 (conj z) = cnorm2 z.
  Proof. destruct z as [x y]. unfold cnorm2, conj, cre, cim. cbn [fst snd]. ring. Qed.
  Lemma div_mesh i n h : i < n -> 1 <= h -> i * h / n < h.
  Proof. clear. intros H1 H2. apply Nat.div_lt_upper_bound; [lia|]. nia. Qed.
  Lemma power_ok window top size navg mode i j : 1 <= mh window -> 1 <= mw window -> (0 < top)%Z -> (size <= Z.of_nat (mh window))%Z -> (size <= Z.of_nat (mw window))%Z -> i < navg -> j < navg -> mode <> POther ->
    exists p, power_at K W psf window top size navg mode i j = Ok p /\ mh p = mh window /\ mw p = columns mode (mw window) /\
      forall a b, mat_at p a b = cnorm2 (transformed window top size navg i j a b).
  Proof.
    intros Hh Hw Ht Sh Sw Hi Hj M.
    assert (Dh := @div_mesh i navg (mh window) Hi Hh). assert (Dw := @div_mesh j navg (mw window) Hj Hw).
    set (y := Z.of_nat (i * mh window / navg)). set (x := Z.of_nat (j * mw window / navg)).
    assert (R0 : rect (mh window) (mw window) (repeat (repeat 0%Z (mw window)) (mh window))).
    { split; [apply repeat_length|]. intros a Ha. rewrite nth_repeat_lt by exact Ha. apply repeat_length. }
    assert (G0 : forall a b, get (repeat (repeat 0%Z (mw window)) (mh window)) a b = 0%Z).
    { intros a b. unfold get. destruct (Nat.lt_ge_cases a (mh window)) as [Ha|Ha]; [rewrite nth_repeat_lt by exact Ha; apply nth_repeat|]. rewrite (nth_overflow (repeat _ _)) by (rewrite repeat_length; exact Ha). destruct b; reflexivity. }
    destruct (@C71_psf (mh window) (mw window) top (fun _ => psf i j) size [(y, x)] _ ltac:(lia) ltac:(lia) Ht R0) as (im & E & R & V & P).
    { intros h w [Q|[]]. injection Q as <- <-. unfold y, x. clear - Dh Dw Sh Sw. revert Dh Dw. generalize (i * mh window / navg), (j * mw window / navg). lia. }
    assert (P' : forall a b, a < mh window -> b < mw window -> image_at K im a b = fnat K (Z.to_nat (drawn window top size navg i j a b))).
    { intros a b Ha Hb. unfold image_at. f_equal. f_equal. change (nth b (nth a im []) 0%Z) with (get im a b). specialize (P a b Ha Hb). rewrite G0 in P.
      assert (Vab : (0 <= get im a b < top)%Z) by (apply V; [intros; rewrite G0; lia|exact Ha|exact Hb]). rewrite (Z.mod_small (get im a b)) in P by exact Vab. rewrite P. unfold drawn. f_equal. cbn [combine seq length zsum fold_right fst snd]. change (fold_right (fun x0 s => ?f x0 + s)%Z 0%Z ?l) with (zsum l f). rewrite !Z.add_0_r, Z.add_0_l. reflexivity. }
    unfold power_at. fold y x. rewrite E. cbn [bind].
    destruct mode; [| |congruence]; unfold _rfft2, _fft2; cbn [mh mw]; (destruct (Nat.eqb_spec (mh window) 0); [lia|]); (destruct (Nat.eqb_spec (mw window) 0); [lia|]); cbn [orb bind]; eexists; (split; [reflexivity|]); cbn [mh mw mat_at columns]; (split; [reflexivity|]); (split; [reflexivity|]); intros a b; f_equal; apply dft2_ext; try reflexivity; cbn [mh mw mat_at]; intros r c Hr Hc; rewrite P' by assumption; reflexivity.
  Qed.
  Lemma sum_ok window top size navg mode : 1 <= mh window -> 1 <= mw window -> (0 < top)%Z -> (size <= Z.of_nat (mh window))%Z -> (size <= Z.of_nat (mw window))%Z -> mode <> POther ->
    forall l, (forall p, In p l -> fst p < navg /\ snd p < navg) -> forall o, (mh o = mh window /\ mw o = columns mode (mw window)) ->
    exists o', fold_left (fun r p => let* out := r in let* f := power_at K W psf window top size navg mode (fst p) (snd p) in Ok (Some (plus K out f))) l (Ok (Some o)) = Ok (Some o') /\ mh o' = mh window /\ mw o' = columns mode (mw window) /\
      forall a b, mat_at o' a b = fadd K (mat_at o a b) (Sum (fmon K) l (fun p => cnorm2 (transformed window top size navg (fst p) (snd p) a b))).
  Proof.
    intros Hh Hw Ht Sh Sw M. induction l as [|p l IH]; intros Hl o (O1 & O2).
    - exists o. cbn [fold_left]. repeat split; try assumption. intros a b. rewrite Sum_nil. change (m0 (fmon K)) with (f0 K). ring.
    - cbn [fold_left bind]. destruct (Hl p (or_introl eq_refl)) as [H1 H2]. destruct (@power_ok window top size navg mode (fst p) (snd p) Hh Hw Ht Sh Sw H1 H2 M) as (f & E & F1 & F2 & F3). rewrite E. cbn [bind].
      destruct (IH (fun q Hq => Hl q (or_intror Hq)) (plus K (Some o) f)) as (o' & E' & G1 & G2 & G3); [split; assumption|].
      exists o'. split; [exact E'|]. split; [exact G1|]. split; [exact G2|]. intros a b. rewrite G3, Sum_cons. cbn [plus mat_at]. rewrite F3. change (madd (fmon K)) with (fadd K). ring.
  Qed.
  Lemma Sum_square (n : nat) (f : nat -> nat -> K) : Sum (fmon K) (mesh n) (fun p => f (fst p) (snd p)) = Sum (fmon K) (seq 0 n) (fun i => Sum (fmon K) (seq 0 n) (f i)).
  Proof. unfold mesh. rewrite Sum_list_prod. apply Sum_ext. intros i _. apply Sum_ext. intros j _. reflexivity. Qed.

  (** The result: at every frequency the root of the mean over the mesh of the squares of the moduli. *)
  Theorem C91_value window size intensity navg dtype mode : 1 <= mh window -> 1 <= mw window -> (size <= Z.of_nat (mh window))%Z -> (size <= Z.of_nat (mw window))%Z ->
    (dtype = DUint8 /\ 0 <= intensity <= 255 \/ dtype = DUint16 /\ 0 <= intensity)%Z -> (1 <= navg)%Z -> mode <> POther ->
    exists out, form_factor K W root psf window size intensity navg dtype mode = Ok (Some out) /\ mh out = mh window /\ mw out = columns mode (mw window) /\
      forall a b, mat_at out a b = root (mesh_mean (Z.to_nat navg) (fun i j => cnorm2 (transformed window (match dtype with DUint8 => 256 | _ => 65536 end) size (Z.to_nat navg) i j a b))).
  Proof.
    intros Hh Hw Sh Sw Hd Hn M. unfold form_factor. rewrite (proj2 (C58_dtype dtype intensity)) by exact Hd. cbn [bind]. set (n := Z.to_nat navg).
    assert (Ht : (0 < top_of dtype)%Z) by (destruct dtype; reflexivity).
    assert (Et : top_of dtype = match dtype with DUint8 => 256 | _ => 65536 end%Z) by (destruct dtype; reflexivity).
    assert (Em : mesh n = (0, 0) :: tl (mesh n)). { unfold mesh. destruct n as [|n'] eqn:En; [unfold n in En; lia|]. reflexivity. }
    assert (Hin : forall p, In p (mesh n) -> fst p < n /\ snd p < n). { intros [i j] H. apply in_prod_iff in H. rewrite !in_seq in H. cbn [fst snd]. lia. }
    unfold sum_powers. rewrite Em. cbn [fold_left bind fst snd].
    destruct (@power_ok window (top_of dtype) size n mode 0 0 Hh Hw Ht Sh Sw ltac:(unfold n; lia) ltac:(unfold n; lia) M) as (f & E & F1 & F2 & F3). rewrite E. cbn [bind plus].
    destruct (@sum_ok window (top_of dtype) size n mode Hh Hw Ht Sh Sw M (tl (mesh n))) with (o := f) as (o & E' & G1 & G2 & G3); [intros p Hp; apply Hin; rewrite Em; right; exact Hp|split; assumption|].
    rewrite E'. cbn [bind]. destruct (Z.eqb_spec navg 0); [lia|]. eexists. split; [reflexivity|]. cbn [mh mw mat_at]. split; [exact G1|]. split; [exact G2|]. intros a b. f_equal. unfold mesh_mean. f_equal.
    rewrite G3, F3, <- Et, <- Sum_square, Em, Sum_cons. reflexivity.
  Qed.
  (** The half-plane is the first columns of the plane. *)
  Theorem C91_half window size intensity navg dtype half full : 1 <= mh window -> 1 <= mw window -> (size <= Z.of_nat (mh window))%Z -> (size <= Z.of_nat (mw window))%Z ->
    form_factor K W root psf window size intensity navg dtype PRfft2 = Ok (Some half) -> form_factor K W root psf window size intensity navg dtype PFft2 = Ok (Some full) ->
    mh half = mh full /\ mw half = mw full / 2 + 1 /\ forall a b, mat_at half a b = mat_at full a b.
  Proof.
    intros Hh Hw Sh Sw E1 E2.
    assert (Hd : (dtype = DUint8 /\ 0 <= intensity <= 255 \/ dtype = DUint16 /\ 0 <= intensity)%Z). { apply C58_dtype. revert E1. unfold form_factor. destruct (_inspect_frame_dtype dtype intensity) as [d|e] eqn:Ed; [|discriminate]. intros _. f_equal. revert Ed. unfold _inspect_frame_dtype. destruct dtype; cbn; repeat match goal with |- context [if ?x then _ else _] => destruct x end; congruence. }
    assert (Hn : (1 <= navg)%Z). { revert E1. unfold form_factor. destruct (_inspect_frame_dtype dtype intensity); [|discriminate]. cbn [bind]. destruct (Z.to_nat navg) eqn:En; [|lia]. cbn. destruct (navg =? 0)%Z; discriminate. }
    destruct (@C91_value window size intensity navg dtype PRfft2 Hh Hw Sh Sw Hd Hn ltac:(discriminate)) as (o1 & F1 & A1 & B1 & G1). destruct (@C91_value window size intensity navg dtype PFft2 Hh Hw Sh Sw Hd Hn ltac:(discriminate)) as (o2 & F2 & A2 & B2 & G2).
    rewrite E1 in F1. rewrite E2 in F2. injection F1 as <-. injection F2 as <-. cbn [columns] in *. rewrite A1, A2, B1, B2. split; [reflexivity|]. split; [reflexivity|]. intros a b. rewrite G1, G2. reflexivity.
  Qed.
  (** The full plane is unchanged when both frequencies change sign. *)
  Theorem C91_even window size intensity navg dtype full : 1 <= mh window -> 1 <= mw window -> (size <= Z.of_nat (mh window))%Z -> (size <= Z.of_nat (mw window))%Z ->
    (dtype = DUint8 /\ 0 <= intensity <= 255 \/ dtype = DUint16 /\ 0 <= intensity)%Z -> (1 <= navg)%Z -> is_root (mh window) (W (mh window)) -> is_root (mw window) (W (mw window)) ->
    form_factor K W root psf window size intensity navg dtype PFft2 = Ok (Some full) -> forall ki kj, at_freq full (- ki) (- kj) = at_freq full ki kj.
  Proof.
    intros Hh Hw Sh Sw Hd Hn R1 R2 E ki kj. destruct (@C91_value window size intensity navg dtype PFft2 Hh Hw Sh Sw Hd Hn ltac:(discriminate)) as (o & F & A & B & G). rewrite E in F. injection F as <-. cbn [columns] in B.
    unfold at_freq. rewrite A, B, !G. f_equal. unfold mesh_mean. f_equal. apply Sum_ext. intros i _. apply Sum_ext. intros j _. unfold transformed.
    set (x := Mat (mh window) (mw window) _). pose proof (@dft2_hermitian K W x Hh Hw R1 R2 (fun a b => conj_cofre K _) ki kj) as Q. unfold at_freq in Q. cbn [mh mw mat_at x] in Q. fold x in Q. rewrite Q. apply cnorm2_conj.
  Qed.
  (** What is refused; a mesh of no points gives ZeroDivisionError whatever the mode, one of negative size the
      number 0. *)
  Theorem C91_refused window size intensity navg dtype mode : 
    (~ (dtype = DUint8 /\ 0 <= intensity <= 255 \/ dtype = DUint16 /\ 0 <= intensity)%Z -> form_factor K W root psf window size intensity navg dtype mode = Raise ValueError) /\
    ((dtype = DUint8 /\ 0 <= intensity <= 255 \/ dtype = DUint16 /\ 0 <= intensity)%Z -> (navg = 0%Z -> form_factor K W root psf window size intensity navg dtype mode = Raise ZeroDivisionError) /\ ((navg < 0)%Z -> form_factor K W root psf window size intensity navg dtype mode = Ok None) /\
      ((0 < navg)%Z -> 1 <= mh window -> 1 <= mw window -> (size <= Z.of_nat (mh window))%Z -> (size <= Z.of_nat (mw window))%Z -> form_factor K W root psf window size intensity navg dtype POther = Raise ValueError)).
  Proof.
    split.
    - intros H. unfold form_factor. destruct (_inspect_frame_dtype dtype intensity) as [d|e] eqn:E.
      + exfalso. apply H. apply C58_dtype. rewrite E. f_equal. revert E. unfold _inspect_frame_dtype. destruct dtype; cbn; repeat match goal with |- context [if ?x then _ else _] => destruct x end; congruence.
      + cbn [bind]. f_equal. revert E. unfold _inspect_frame_dtype. destruct dtype; cbn; repeat match goal with |- context [if ?x then _ else _] => destruct x end; congruence.
    - intros Hd. unfold form_factor. rewrite (proj2 (C58_dtype dtype intensity)) by exact Hd. cbn [bind]. split; [intros ->; reflexivity|]. split.
      + intros Hn. destruct (Z.to_nat navg) eqn:En; [|lia]. cbn. destruct (Z.eqb_spec navg 0); [lia|reflexivity].
      + intros Hn Hh Hw Sh Sw. set (n := Z.to_nat navg). assert (Em : exists l, mesh n = (0, 0) :: l). { unfold mesh. destruct n as [|n'] eqn:En; [unfold n in En; lia|]. eexists. reflexivity. } destruct Em as (l & Em).
        unfold sum_powers. rewrite Em. cbn [fold_left bind fst snd].
        assert (Ep : power_at K W psf window (top_of dtype) size n POther 0 0 = Raise ValueError).
        { unfold power_at. destruct (@C71_psf_box (mh window) (mw window) (top_of dtype) (fun _ => psf 0 0) size [(Z.of_nat (0 * mh window / n), Z.of_nat (0 * mw window / n))] (repeat (repeat 0%Z (mw window)) (mh window))) as (im & E & _); try lia; try (destruct dtype; reflexivity).
          - split; [apply repeat_length|]. intros a Ha. rewrite nth_repeat_lt by exact Ha. apply repeat_length.
          - intros h w [Q|[]]. injection Q as <- <-. rewrite ?Nat.mul_0_l. rewrite ?Nat.div_0_l by (unfold n; lia). lia.
          - rewrite E. reflexivity. }
        rewrite Ep. cbn [bind]. assert (Z : forall l', fold_left (fun r p => let* out := r in let* f := power_at K W psf window (top_of dtype) size n POther (fst p) (snd p) in Ok (Some (plus K out f))) l' (Raise ValueError) = Raise ValueError) by (induction l' as [|p l' IH]; [reflexivity|exact IH]). rewrite Z. reflexivity.
  Qed.
  (** "Average absolute value of the FFT": the square of the result is never below the square of that average. *)
  Theorem C91_average window size intensity navg dtype mode out (modulus : C -> K) : 1 <= mh window -> 1 <= mw window -> (size <= Z.of_nat (mh window))%Z -> (size <= Z.of_nat (mw window))%Z ->
    (dtype = DUint8 /\ 0 <= intensity <= 255 \/ dtype = DUint16 /\ 0 <= intensity)%Z -> (1 <= navg)%Z -> mode <> POther -> (forall z, fmul K (modulus z) (modulus z) = cnorm2 z) -> (forall x, fle (f0 K) x -> fmul K (root x) (root x) = x) ->
    form_factor K W root psf window size intensity navg dtype mode = Ok (Some out) -> forall a b,
    let average := mesh_mean (Z.to_nat navg) (fun i j => modulus (transformed window (match dtype with DUint8 => 256 | _ => 65536 end) size (Z.to_nat navg) i j a b)) in
    fle (fmul K average average) (fmul K (mat_at out a b) (mat_at out a b)).
  Proof.
    intros Hh Hw Sh Sw Hd Hn M Hm Hr E a b average. destruct (@C91_value window size intensity navg dtype mode Hh Hw Sh Sw Hd Hn M) as (o & F & _ & _ & G). rewrite E in F. injection F as <-. rewrite G.
    set (n := Z.to_nat navg) in *. set (f := fun i j => modulus (transformed window (match dtype with DUint8 => 256 | _ => 65536 end) size n i j a b)).
    assert (Q : mesh_mean n (fun i j => cnorm2 (transformed window (match dtype with DUint8 => 256 | _ => 65536 end) size n i j a b)) = mesh_mean n (fun i j => fmul K (f i j) (f i j))).
    { unfold mesh_mean. f_equal. apply Sum_ext. intros i _. apply Sum_ext. intros j _. symmetry. apply Hm. }
    rewrite Q. assert (P : flt K (f0 K) (fnat K (n * n)) = true) by (apply flt_fnat; unfold n; lia). assert (P0 : fnat K (n * n) <> f0 K) by (intros X; apply (@flt_neq K _ _ P); symmetry; exact X).
    pose proof (cauchy K (mesh n) (fun p => f (fst p) (snd p))) as Cs. rewrite Sum_square in Cs. rewrite (Sum_square n (fun i j => fmul K (f i j) (f i j))) in Cs. replace (length (mesh n)) with (n * n) in Cs by (unfold mesh; rewrite prod_length, seq_length; reflexivity).
    set (S1 := Sum (fmon K) (seq 0 n) (fun i => Sum (fmon K) (seq 0 n) (f i))) in Cs. set (S2 := Sum (fmon K) (seq 0 n) (fun i => Sum (fmon K) (seq 0 n) (fun j => fmul K (f i j) (f i j)))) in Cs.
    assert (A : average = fdiv K S1 (fnat K (n * n))) by reflexivity. change (mesh_mean n (fun i j => fmul K (f i j) (f i j))) with (fdiv K S2 (fnat K (n * n))).
    assert (B : fle (fmul K average average) (fdiv K S2 (fnat K (n * n)))).
    { replace (fmul K average average) with (fdiv K (fdiv K (fmul K S1 S1) (fnat K (n * n))) (fnat K (n * n))) by (rewrite A; field; exact P0). replace (fdiv K S2 (fnat K (n * n))) with (fdiv K (fdiv K (fmul K (fnat K (n * n)) S2) (fnat K (n * n))) (fnat K (n * n))) by (field; exact P0).
      apply fle_div; [|exact P]. apply fle_div; [exact Cs|exact P]. }
    rewrite Hr; [exact B|]. eapply fle_trans; [|exact B]. apply fsquare.
  Qed.
End Form.
Print Assumptions C91_value.
Print Assumptions C91_half.
Print Assumptions C91_even.
Print Assumptions C91_refused.
Print Assumptions C91_average.
(** It is not that average: two rows weighted 1 and 3, one spot of one pixel at each of them, give the root of 5
    where the average modulus is 2. *)
Definition win13 (K : Fld) : mat K := Mat 2 1 (fun i _ => match i with 0 => f1 K | _ => fadd K (f1 K) (fadd K (f1 K) (f1 K)) end).
Section Average.
  Variable K : OFld.
  Add Field Kavg13 : (flaw K).
  Variable W : nat -> Cx K.
  Lemma transformed13 i j : i < 2 -> j < 2 -> transformed K W (fun _ _ _ _ => 1%Z) (win13 K) 256 0 2 i j 0 0 = cofre (mat_at (win13 K) i 0).
  Proof.
    intros Hi Hj. assert (E : forall r, r < 2 -> drawn K (fun _ _ _ _ => 1%Z) (win13 K) 256 0 2 i j r 0 = if r =? i then 1%Z else 0%Z).
    { intros r Hr. destruct i as [|[|i]]; [| |lia]; (destruct j as [|[|j]]; [| |lia]); (destruct r as [|[|r]]; [| |lia]); reflexivity. }
    unfold transformed, dft2_at. cbn [mh mw mat_at win13 seq]. rewrite !Sum_cons, !Sum_nil. cbn [mat_at]. rewrite (E 0), (E 1) by lia. rewrite !Nat.mul_0_r. cbn [cpow].
    destruct i as [|[|i]]; [| |lia]; cbn [Nat.eqb Z.to_nat Pos.to_nat Pos.iter_op Nat.add fnat]; apply pair_equal_spec; cbn; change (fnat K (Pos.to_nat 1)) with (fadd K (f1 K) (f0 K)); split; match goal with |- @eq _ ?a ?b => change (@eq (fcar K) a b) end; ring.
  Qed.
End Average.
Theorem C91_average_refuted (W : nat -> Cx RF) : exists out, form_factor RO W sqrt (fun _ _ _ _ => 1%Z) (win13 RF) 0 1 2 DUint8 PRfft2 = Ok (Some out) /\ mat_at out 0 0 = sqrt 5 /\
  (forall modulus : Cx RF -> R, (forall x, (0 <= x)%R -> modulus (x, 0%R) = x) -> mesh_mean RO 2 (fun i j => modulus (transformed RO W (fun _ _ _ _ => 1%Z) (win13 RF) 256 0 2 i j 0 0)) = 2%R) /\ sqrt 5 <> 2%R.
Proof.
  destruct (@C91_value RO W sqrt (fun _ _ _ _ => 1%Z) (win13 RF) 0 1 2 DUint8 PRfft2) as (out & E & _ & _ & G); try (cbn; lia); try discriminate; try (left; split; [reflexivity|lia]).
  exists out. split; [exact E|]. split.
  - rewrite G. f_equal. unfold mesh_mean. change (Z.to_nat 2) with 2. cbn [seq]. rewrite !Sum_cons, !Sum_nil. rewrite !(@transformed13 RO) by lia. cbn. field.
  - split.
    + intros modulus Hm. unfold mesh_mean. cbn [seq]. rewrite !Sum_cons, !Sum_nil. rewrite !(@transformed13 RO) by lia. cbn. unfold cofre. cbn. rewrite !Hm by lra. field.
    + intros H. assert (sqrt 5 * sqrt 5 = 5)%R by (apply sqrt_sqrt; lra). rewrite H in H0. lra.
Qed.
Print Assumptions C91_average_refuted.
Example C91_holds : match form_factor QcO (fun n : nat => match n with 2 => (q (-1), q 0) | _ => (q 1, q 0) end) (fun x => x) (fun _ _ _ _ => 1%Z) (win13 QcF) 0 1 2 DUint8 PFft2 with Ok (Some o) => Some (mh o, mw o, show (mat_at o 0 0), show (mat_at o 1 0)) | _ => None end = Some (2, 1, (5, 1)%Z, (5, 1)%Z).
Proof. vm_compute. reflexivity. Qed.
