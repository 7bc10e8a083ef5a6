(** C59, C60, C73: cropping of Fourier data, half-plane and full-plane data, Fourier transforms of videos. *)
From Coq Require Import ZifyBool ZifyNat.
From Verif Require Import Base KernelProofs Ordered FftModel FftProofs VideoModel VideoProofs MapModel MapProofs Fft2Model Fft2Proofs Prop_Fft Examples.
Set Implicit Arguments.
Ltac Zify.zify_post_hook ::= Z.div_mod_to_equations.

(** For the examples: the array of the given entries, and back. *)
Definition table {A} (d : A) (l : list (list A)) : mat A := Mat (length l) (length (hd [] l)) (fun i j => nth j (nth i l []) d).
Definition entries {A} (x : mat A) : list (list A) := map (fun i => map (mat_at x i) (seq 0 (mw x))) (seq 0 (mh x)).
Definition shown {A} (r : res (mat A)) : res (list (list A)) := match r with Ok x => Ok (entries x) | Raise e => Raise e end.

(* ------------------------------------------------------------------ *)
(** * C59: cropping *)
Local Open Scope Z_scope.
Theorem C59_rfft2_crop (A : Type) (junk : nat -> nat -> A) (x : mat A) kimax kjmax : 1 <= kimax <= Z.of_nat (mh x) / 2 -> 0 <= kjmax < Z.of_nat (mw x) ->
  exists out, rfft2_crop junk x (Some kimax) (Some kjmax) = Ok out /\ Z.of_nat (mh out) = 2 * kimax + 1 /\ Z.of_nat (mw out) = kjmax + 1 /\
    forall ki kj, - kimax <= ki <= kimax -> 0 <= kj <= kjmax -> at_freq out ki kj = at_freq x ki kj.
Proof.
  intros H1 H2. destruct (@rfft2_crop_ok A junk x (Some kimax) (Some kjmax)) as (out & E & R & C & V); [lia|left; exact H1|cbn; lia|].
  cbn [cropped cropped_half] in R, C. exists out. split; [exact E|]. split; [lia|]. split; [lia|]. intros ki kj Hi Hj. unfold at_freq. rewrite !(@freq_pos _ kj) by lia. apply V; [exact Hi|lia].
Qed.
Print Assumptions C59_rfft2_crop.
Theorem C59_fft2_crop (A : Type) (junk : nat -> nat -> A) (x : mat A) kimax kjmax : 1 <= kimax <= Z.of_nat (mh x) / 2 -> 1 <= kjmax <= Z.of_nat (mw x) / 2 ->
  exists out, fft2_crop junk x (Some kimax) (Some kjmax) = Ok out /\ Z.of_nat (mh out) = 2 * kimax + 1 /\ Z.of_nat (mw out) = 2 * kjmax + 1 /\
    forall ki kj, - kimax <= ki <= kimax -> - kjmax <= kj <= kjmax -> at_freq out ki kj = at_freq x ki kj.
Proof.
  intros H1 H2. destruct (@fft2_crop_ok A junk x (Some kimax) (Some kjmax)) as (out & E & R & C & V); [lia|lia|left; exact H1|left; exact H2|].
  cbn [cropped] in R, C. exists out. split; [exact E|]. split; [lia|]. split; [lia|]. exact V.
Qed.
Print Assumptions C59_fft2_crop.
(** With one cut-off left out the other axis stays as it is. *)
Theorem C59_one_axis (A : Type) (junk : nat -> nat -> A) (x : mat A) : (1 <= mh x)%nat -> (1 <= mw x)%nat ->
  (forall kjmax, 0 <= kjmax < Z.of_nat (mw x) -> exists out, rfft2_crop junk x None (Some kjmax) = Ok out /\ mh out = mh x /\ Z.of_nat (mw out) = kjmax + 1 /\
     forall i j, (i < mh out)%nat -> (j < mw out)%nat -> mat_at out i j = mat_at x i j) /\
  (forall kimax, 1 <= kimax <= Z.of_nat (mh x) / 2 -> exists out, rfft2_crop junk x (Some kimax) None = Ok out /\ Z.of_nat (mh out) = 2 * kimax + 1 /\ mw out = mw x /\
     forall ki j, - kimax <= ki <= kimax -> (j < mw x)%nat -> mat_at out (freq (mh out) ki) j = mat_at x (freq (mh x) ki) j) /\
  (forall kjmax, 1 <= kjmax <= Z.of_nat (mw x) / 2 -> exists out, fft2_crop junk x None (Some kjmax) = Ok out /\ mh out = mh x /\ Z.of_nat (mw out) = 2 * kjmax + 1 /\
     forall ki kj, - kjmax <= kj <= kjmax -> at_freq out ki kj = at_freq x ki kj) /\
  (forall kimax, 1 <= kimax <= Z.of_nat (mh x) / 2 -> exists out, fft2_crop junk x (Some kimax) None = Ok out /\ Z.of_nat (mh out) = 2 * kimax + 1 /\ mw out = mw x /\
     forall ki kj, - kimax <= ki <= kimax -> at_freq out ki kj = at_freq x ki kj) /\
  rfft2_crop junk x None None = Ok x /\ fft2_crop junk x None None = Ok x.
Proof.
  intros H0 G0. split.
  { intros k Hk. destruct (@rfft2_crop_ok A junk x None (Some k)) as (out & E & R & C & V); [lia|exact Logic.I|cbn; lia|]. cbn [cropped cropped_half] in R, C. exists out. split; [exact E|]. split; [exact R|]. split; [lia|].
    intros i j Hi Hj. pose proof (V (Z.of_nat i) j Logic.I Hj) as P. rewrite !freq_pos in P by lia. rewrite Nat2Z.id in P. exact P. }
  split.
  { intros k Hk. destruct (@rfft2_crop_ok A junk x (Some k) None) as (out & E & R & C & V); [lia|left; exact Hk|exact Logic.I|]. cbn [cropped cropped_half] in R, C. exists out. split; [exact E|]. split; [lia|]. split; [exact C|].
    intros ki j Hi Hj. apply V; [exact Hi|lia]. }
  split.
  { intros k Hk. destruct (@fft2_crop_ok A junk x None (Some k)) as (out & E & R & C & V); [lia|lia|exact Logic.I|left; exact Hk|]. cbn [cropped] in R, C. exists out. split; [exact E|]. split; [exact R|]. split; [lia|].
    intros ki kj Hj. apply V; [exact Logic.I|exact Hj]. }
  split.
  { intros k Hk. destruct (@fft2_crop_ok A junk x (Some k) None) as (out & E & R & C & V); [lia|lia|left; exact Hk|exact Logic.I|]. cbn [cropped] in R, C. exists out. split; [exact E|]. split; [lia|]. split; [exact C|].
    intros ki kj Hj. apply V; [exact Hj|exact Logic.I]. }
  split; reflexivity.
Qed.
Print Assumptions C59_one_axis.
(** A cut-off that does not fit - too large, negative, or zero on an axis of more than one row - is a ValueError. *)
Theorem C59_refused (A : Type) (junk : nat -> nat -> A) (x : mat A) kimax kjmax : (1 <= mh x)%nat -> (1 <= mw x)%nat ->
  (kimax > Z.of_nat (mh x) / 2 \/ kimax < 0 \/ (kimax = 0 /\ (2 <= mh x)%nat) ->
     rfft2_crop junk x (Some kimax) kjmax = Raise ValueError /\ fft2_crop junk x (Some kimax) kjmax = Raise ValueError) /\
  (forall k, k >= Z.of_nat (mw x) \/ k < -1 -> rfft2_crop junk x kjmax (Some k) = Raise ValueError) /\
  (forall k, k > Z.of_nat (mw x) / 2 \/ k < 0 \/ (k = 0 /\ (2 <= mw x)%nat) -> fft2_crop junk x kjmax (Some k) = Raise ValueError).
Proof.
  intros H0 G0. split; [|split].
  - intros H. split; [apply rfft2_crop_bad; [exact H0|]|apply fft2_crop_bad; [exact H0|exact G0|]]; intros [F _]; cbn [fits] in F; lia.
  - intros k H. apply rfft2_crop_bad; [exact H0|]. intros [_ F]. cbn [fits_half] in F. lia.
  - intros k H. apply fft2_crop_bad; [exact H0|exact G0|]. intros [_ F]. cbn [fits] in F. lia.
Qed.
Print Assumptions C59_refused.
(** The uninitialized array (np.empty) does not show through: every entry of the result is one of the input. *)
Theorem C59_no_junk (A : Type) (junk junk' : nat -> nat -> A) (x : mat A) kimax kjmax out : (1 <= mh x)%nat -> (1 <= mw x)%nat ->
  (rfft2_crop junk x kimax kjmax = Ok out -> exists out', rfft2_crop junk' x kimax kjmax = Ok out' /\ same out out') /\
  (fft2_crop junk x kimax kjmax = Ok out -> exists out', fft2_crop junk' x kimax kjmax = Ok out' /\ same out out').
Proof.
  intros H0 G0.
  assert (Each : forall n kmax i, (1 <= n)%nat -> fits n kmax -> (i < cropped n kmax)%nat -> exists k, kept kmax k /\ freq (cropped n kmax) k = i).
  { intros n [k|] i Hn F Hi; cbn [fits cropped kept] in *.
    - destruct (Z.leb_spec (Z.of_nat i) k).
      + exists (Z.of_nat i). split; [lia|]. rewrite freq_pos by lia. lia.
      + exists (Z.of_nat i - (2 * k + 1)). split; [lia|]. rewrite freq_neg by lia. lia.
    - exists (Z.of_nat i). split; [exact Logic.I|]. rewrite freq_pos by lia. lia. }
  split; intros E.
  - destruct (fits_dec (mh x) kimax) as [F|F]; [|rewrite rfft2_crop_bad in E by tauto; discriminate]. destruct (fits_half_dec (mw x) kjmax) as [G|G]; [|rewrite rfft2_crop_bad in E by tauto; discriminate].
    destruct (@rfft2_crop_ok A junk x kimax kjmax H0 F G) as (o1 & E1 & R1 & C1 & V1). destruct (@rfft2_crop_ok A junk' x kimax kjmax H0 F G) as (o2 & E2 & R2 & C2 & V2).
    assert (out = o1) as -> by congruence. exists o2. split; [exact E2|]. split; [congruence|]. split; [congruence|]. intros i j Hi Hj. rewrite R1 in Hi. destruct (Each _ _ i H0 F Hi) as (k & Hk & <-).
    rewrite <- R1 at 1. rewrite V1 by assumption. rewrite <- R2. symmetry. apply V2; [exact Hk|]. rewrite C2, <- C1. exact Hj.
  - destruct (fits_dec (mh x) kimax) as [F|F]; [|rewrite fft2_crop_bad in E by tauto; discriminate]. destruct (fits_dec (mw x) kjmax) as [G|G]; [|rewrite fft2_crop_bad in E by tauto; discriminate].
    destruct (@fft2_crop_ok A junk x kimax kjmax H0 G0 F G) as (o1 & E1 & R1 & C1 & V1). destruct (@fft2_crop_ok A junk' x kimax kjmax H0 G0 F G) as (o2 & E2 & R2 & C2 & V2).
    assert (out = o1) as -> by congruence. exists o2. split; [exact E2|]. split; [congruence|]. split; [congruence|]. intros i j Hi Hj. rewrite R1 in Hi. rewrite C1 in Hj.
    destruct (Each _ _ i H0 F Hi) as (k & Hk & <-). destruct (Each _ _ j G0 G Hj) as (l & Hl & <-).
    pose proof (V1 k l Hk Hl) as P1. pose proof (V2 k l Hk Hl) as P2. unfold at_freq in P1, P2. rewrite R1, C1 in P1. rewrite R2, C2 in P2. congruence.
Qed.
Print Assumptions C59_no_junk.
(** Cutting twice is cutting once. *)
Theorem C59_twice (A : Type) (junk : nat -> nat -> A) (x out : mat A) k1 l1 k2 l2 : 1 <= k2 <= k1 -> k1 <= Z.of_nat (mh x) / 2 -> 1 <= l2 <= l1 -> l1 <= Z.of_nat (mw x) / 2 ->
  fft2_crop junk x (Some k1) (Some l1) = Ok out ->
  exists o2 o3, fft2_crop junk out (Some k2) (Some l2) = Ok o2 /\ fft2_crop junk x (Some k2) (Some l2) = Ok o3 /\ mh o2 = mh o3 /\ mw o2 = mw o3 /\
    forall ki kj, - k2 <= ki <= k2 -> - l2 <= kj <= l2 -> at_freq o2 ki kj = at_freq o3 ki kj.
Proof.
  intros H1 H2 H3 H4 E. destruct (@C59_fft2_crop A junk x k1 l1 ltac:(lia) ltac:(lia)) as (o1 & E1 & R1 & C1 & V1). assert (out = o1) as -> by congruence.
  destruct (@C59_fft2_crop A junk o1 k2 l2 ltac:(lia) ltac:(lia)) as (o2 & E2 & R2 & C2 & V2). destruct (@C59_fft2_crop A junk x k2 l2 ltac:(lia) ltac:(lia)) as (o3 & E3 & R3 & C3 & V3).
  exists o2, o3. split; [exact E2|]. split; [exact E3|]. split; [lia|]. split; [lia|]. intros ki kj Hi Hj. rewrite V2, V1, V3 by lia. reflexivity.
Qed.
Print Assumptions C59_twice.
Definition x45 : mat Z := table 0 [[0; 1; 2; 3; 4]; [10; 11; 12; 13; 14]; [20; 21; 22; 23; 24]; [30; 31; 32; 33; 34]].
Example C59_example : let junk := fun _ _ : nat => 99 in
  shown (rfft2_crop junk x45 (Some 1) (Some 2)) = Ok [[0; 1; 2]; [10; 11; 12]; [30; 31; 32]] /\
  shown (rfft2_crop junk x45 (Some 2) (Some 1)) = Ok [[0; 1]; [10; 11]; [20; 21]; [20; 21]; [30; 31]] /\
  shown (fft2_crop junk x45 (Some 1) (Some 1)) = Ok [[0; 1; 4]; [10; 11; 14]; [30; 31; 34]] /\
  rfft2_crop junk x45 (Some 0) (Some 2) = Raise ValueError /\ rfft2_crop junk x45 (Some 3) None = Raise ValueError /\ rfft2_crop junk x45 None (Some 5) = Raise ValueError.
Proof. cbv zeta. repeat split; vm_compute; reflexivity. Qed.

(* ------------------------------------------------------------------ *)
(** * C60: half-plane and full-plane data *)
(** The half plane of Hermitian data, with the shape, gives the data back. *)
Theorem C60_roundtrip (A : Type) (junk : nat -> nat -> A) (cj : A -> A) (f : mat A) : (1 <= mh f)%nat -> (1 <= mw f)%nat -> hermitian cj f ->
  exists half full, as_rfft2_data f = Ok half /\ from_rfft2_data junk cj half (Some (Z.of_nat (mh f), Z.of_nat (mw f))) = Ok full /\ same full f.
Proof.
  intros H0 H1 HF. destruct (as_rfft2_data_ok f H1) as (half & E & R & C & V). exists half. destruct (@complete_half A junk cj f half H0 H1 HF R C V) as (full & E2 & S). exists full. auto.
Qed.
Print Assumptions C60_roundtrip.
(** as_rfft2_conj(f)[i, j] = f[-i, -j] for j >= 1; column 0 holds no data. *)
Theorem C60_conj (A : Type) (fill : A) (f : mat A) : (1 <= mh f)%nat -> (1 <= mw f)%nat -> exists m, as_rfft2_conj fill f = Ok m /\ mh m = mh f /\ Z.of_nat (mw m) = Z.of_nat (mw f) / 2 + 1 /\
  (forall i j, (i < mh m)%nat -> (1 <= j < mw m)%nat -> mat_at m i j = at_freq f (- Z.of_nat i) (- Z.of_nat j)) /\ (forall i, (i < mh m)%nat -> mat_at m i 0 = fill).
Proof.
  intros H0 H1. destruct (as_rfft2_conj_ok fill f H0 H1) as (m & E & R & C & V). exists m. split; [exact E|]. split; [exact R|]. split; [lia|]. split.
  - intros i j Hi Hj. rewrite V by lia. replace (j =? 0)%nat with false by lia. reflexivity.
  - intros i Hi. rewrite V by lia. reflexivity.
Qed.
Print Assumptions C60_conj.
(** Without the shape: odd widths come back, even ones with one column more. *)
Theorem C60_without_shape (A : Type) (junk : nat -> nat -> A) (cj : A -> A) (f : mat A) : (1 <= mh f)%nat -> (1 <= mw f)%nat -> hermitian cj f ->
  exists half full, as_rfft2_data f = Ok half /\ from_rfft2_data junk cj half None = Ok full /\
    (Nat.Odd (mw f) -> same full f) /\ (Nat.Even (mw f) -> mw full = (mw f + 1)%nat).
Proof.
  intros H0 H1 HF. destruct (as_rfft2_data_ok f H1) as (half & E & R & C & V). exists half.
  destruct (Nat.Even_or_Odd (mw f)) as [P|P].
  - destruct (@from_rfft2_ok A junk cj half None (mw f + 1)) as (full & E2 & R2 & C2 & V2); [lia|lia|destruct P; lia| |].
    { unfold as_fft2_shape. cbn [bind]. rewrite R, C. do 2 f_equal. destruct P; lia. }
    exists full. split; [exact E|]. split; [exact E2|]. split; [|intros _; exact C2]. intros Q. destruct P, Q; lia.
  - destruct (@C60_roundtrip A junk cj f H0 H1 HF) as (half' & full & E' & E2 & S). assert (half' = half) as -> by congruence. exists full. split; [exact E|].
    split; [|split; [intros _; exact S|intros Q; destruct P, Q; lia]]. rewrite <- E2. unfold from_rfft2_data. f_equal. unfold as_fft2_shape. cbn [bind]. rewrite R, C.
    destruct (_ =? _) eqn:E1; [destruct P; lia|]. destruct (_ >? _) eqn:E3; [destruct P; lia|]. cbn [bind]. replace (Z.of_nat (mh f) >? Z.of_nat (mh f)) with false by lia. reflexivity.
Qed.
Print Assumptions C60_without_shape.
(** The other way round: odd widths always come back; an even one if column width/2, which is its own conjugate, is Hermitian. *)
Theorem C60_back (A : Type) (junk : nat -> nat -> A) (cj : A -> A) (a : mat A) w : (1 <= mh a)%nat -> (1 <= w)%nat -> mw a = (w / 2 + 1)%nat ->
  (Nat.Even w -> forall k, mat_at a (freq (mh a) (- k)) (w / 2) = cj (mat_at a (freq (mh a) k) (w / 2))) ->
  exists full half, from_rfft2_data junk cj a (Some (Z.of_nat (mh a), Z.of_nat w)) = Ok full /\ mw full = w /\ as_rfft2_data full = Ok half /\ same half a.
Proof.
  intros H0 H1 HW HE. destruct (@from_rfft2_ok A junk cj a (Some (Z.of_nat (mh a), Z.of_nat w)) w) as (full & E2 & R2 & C2 & V2); [lia|lia|exact HW| |].
  { unfold as_fft2_shape. rewrite HW. destruct (_ =? _) eqn:E1; cbn [bind]; [|destruct (_ >? _) eqn:E2; [lia|]; cbn [bind]].
    - replace (Z.of_nat (mh a) >? Z.of_nat (mh a)) with false by lia. reflexivity.
    - replace (Z.of_nat (mh a) >? Z.of_nat (mh a)) with false by lia. cbn [bind]. do 2 f_equal. lia. }
  destruct (as_rfft2_data_ok full ltac:(lia)) as (half & E & R & C & V). exists full, half. split; [exact E2|]. split; [exact C2|]. split; [exact E|]. split; [congruence|]. split; [congruence|].
  intros i j Hi Hj. rewrite V by lia. rewrite V2 by lia. destruct (_ <? _)%nat eqn:L; [reflexivity|].
  assert (Nat.Even w) as EV by (exists (w / 2)%nat; lia). assert (j = w / 2)%nat as -> by lia. pose proof (HE EV (- Z.of_nat i)) as P. rewrite Z.opp_involutive in P.
  rewrite (@freq_pos (mh a) (Z.of_nat i)), Nat2Z.id in P by lia. rewrite P. do 2 f_equal. destruct EV. lia.
Qed.
Print Assumptions C60_back.
(** A mask of the full plane marks in the half plane every frequency that it contains itself or through its conjugate (outside column 0). *)
Theorem C60_mask (a : mat bool) : (1 <= mh a)%nat -> (1 <= mw a)%nat -> exists m, as_rfft2_mask a = Ok m /\ mh m = mh a /\ Z.of_nat (mw m) = Z.of_nat (mw a) / 2 + 1 /\
  forall i j, (i < mh m)%nat -> (j < mw m)%nat -> mat_at m i j = true <-> (mat_at a i j = true \/ ((1 <= j)%nat /\ at_freq a (- Z.of_nat i) (- Z.of_nat j) = true)).
Proof.
  intros H0 H1. destruct (as_rfft2_data_ok a H1) as (m1 & E1 & R1 & C1 & V1). destruct (as_rfft2_conj_ok false a H0 H1) as (m2 & E2 & R2 & C2 & V2).
  unfold as_rfft2_mask. rewrite E1, E2. cbn [bind]. eexists. split; [reflexivity|]. cbn [mh mw mat_at]. split; [exact R1|]. split; [lia|]. intros i j Hi Hj. rewrite V1, V2 by lia. rewrite orb_true_iff.
  destruct (j =? 0)%nat eqn:E; split; intros [P|P]; auto; try discriminate.
  - lia.
  - right. split; [lia|exact P].
  - right. apply P.
Qed.
Print Assumptions C60_mask.
(** Cropping the half plane and completing it is cropping the full plane. *)
Theorem C60_crop (A : Type) (junk : nat -> nat -> A) (cj : A -> A) (f : mat A) kimax kjmax : hermitian cj f -> 1 <= kimax -> 2 * kimax + 1 <= Z.of_nat (mh f) -> 1 <= kjmax -> 2 * kjmax + 1 <= Z.of_nat (mw f) ->
  exists half cropped full, as_rfft2_data f = Ok half /\ rfft2_crop junk half (Some kimax) (Some kjmax) = Ok cropped /\
    from_rfft2_data junk cj cropped (Some (Z.of_nat (mh f), Z.of_nat (mw f))) = Ok full /\ exists direct, fft2_crop junk f (Some kimax) (Some kjmax) = Ok direct /\ same full direct.
Proof.
  intros HF H1 H2 H3 H4. destruct (as_rfft2_data_ok f ltac:(lia)) as (half & E & R & C & V). exists half.
  destruct (@C59_rfft2_crop A junk half kimax kjmax ltac:(lia) ltac:(lia)) as (cr & E1 & R1 & C1 & V1). exists cr.
  destruct (@from_rfft2_ok A junk cj cr (Some (Z.of_nat (mh f), Z.of_nat (mw f))) (Z.to_nat (2 * kjmax + 1))) as (full & E2 & R2 & C2 & V2); [lia|lia|lia| |].
  { unfold as_fft2_shape. replace (Z.of_nat (mw cr) * 2 - 1 =? Z.of_nat (mw f) + 1) with false by lia. replace (Z.of_nat (mw cr) * 2 - 1 >? Z.of_nat (mw f)) with false by lia. cbn [bind].
    replace (Z.of_nat (mh cr) >? Z.of_nat (mh f)) with false by lia. cbn [bind]. do 2 f_equal. lia. }
  exists full. split; [exact E|]. split; [exact E1|]. split; [exact E2|].
  destruct (@C59_fft2_crop A junk f kimax kjmax ltac:(lia) ltac:(lia)) as (di & E3 & R3 & C3 & V3). exists di. split; [exact E3|]. split; [lia|]. split; [lia|].
  assert (P : forall ki kj, - kimax <= ki <= kimax -> 0 <= kj <= kjmax -> at_freq cr ki kj = at_freq f ki kj).
  { intros ki kj Hi Hj. rewrite V1 by assumption. unfold at_freq. rewrite (@freq_pos (mw half) kj), (@freq_pos (mw f) kj) by lia. rewrite V; [rewrite R; reflexivity|apply freq_lt; lia|lia]. }
  intros i j Hi Hj. rewrite V2 by lia. assert (I : exists ki, - kimax <= ki <= kimax /\ freq (mh cr) ki = i).
  { destruct (Z.leb_spec (Z.of_nat i) kimax); [exists (Z.of_nat i); split; [lia|]; rewrite freq_pos by lia; lia|]. exists (Z.of_nat i - (2 * kimax + 1)). split; [lia|]. rewrite freq_neg by lia. lia. }
  destruct I as (ki & Hki & <-). destruct (_ <? _)%nat eqn:L.
  - pose proof (P ki (Z.of_nat j) Hki ltac:(lia)) as Q. unfold at_freq at 1 in Q. rewrite (@freq_pos (mw cr)), Nat2Z.id in Q by lia. rewrite Q, <- V3 by lia. unfold at_freq. rewrite (@freq_pos (mw di)), Nat2Z.id by lia. f_equal. f_equal. lia.
  - set (kj := Z.of_nat j - (2 * kjmax + 1)). assert (Hkj : - kjmax <= kj < 0) by (subst kj; lia).
    pose proof (P (- ki) (- kj) ltac:(lia) ltac:(lia)) as Q. rewrite HF in Q. rewrite <- V3 in Q by lia. unfold at_freq at 1 in Q. rewrite (@freq_pos (mw cr)) in Q by lia.
    assert (F : freq (mh cr) (- Z.of_nat (freq (mh cr) ki)) = freq (mh cr) (- ki)).
    { unfold freq. rewrite Z2Nat.id by (apply Z.mod_pos_bound; lia). f_equal. rewrite <- (Z.sub_0_l (ki mod _)), <- (Z.sub_0_l ki). apply Zminus_mod_idemp_r. }
    rewrite F. replace (Z.to_nat (2 * kjmax + 1) - j)%nat with (Z.to_nat (- kj)) by (subst kj; lia). rewrite Q.
    pose proof (HF (- ki) (- kj)) as Q2. rewrite !Z.opp_involutive in Q2. rewrite V3 by lia.
    assert (G : at_freq di ki kj = mat_at di (freq (mh cr) ki) j). { unfold at_freq. rewrite (@freq_neg (mw di)) by lia. f_equal; [f_equal; lia|subst kj; lia]. }
    rewrite <- G, V3 by lia. assert (S : cj (cj (at_freq f ki kj)) = at_freq f ki kj) by (rewrite <- !HF, !Z.opp_involutive; reflexivity). exact S.
Qed.
Print Assumptions C60_crop.
(** Documented (rfft2_video: kimax gives 2*kimax+1 rows) but not accepted back: data of an even height cut at height/2
    has height+1 rows, which as_fft2_shape refuses when the shape is given. *)
Theorem C60_nyquist_refuted (A : Type) (junk : nat -> nat -> A) (cj : A -> A) (a : mat A) kjmax w : (1 <= mh a)%nat -> Nat.Even (mh a) -> 0 <= kjmax < Z.of_nat (mw a) -> 2 * kjmax + 1 <= w ->
  exists cr, rfft2_crop junk a (Some (Z.of_nat (mh a) / 2)) (Some kjmax) = Ok cr /\ mh cr = (mh a + 1)%nat /\ from_rfft2_data junk cj cr (Some (Z.of_nat (mh a), w)) = Raise ValueError.
Proof.
  intros H0 [h Hh] H1 H2. destruct (@C59_rfft2_crop A junk a (Z.of_nat (mh a) / 2) kjmax ltac:(lia) ltac:(lia)) as (cr & E1 & R1 & C1 & V1). exists cr. split; [exact E1|]. split; [lia|].
  unfold from_rfft2_data, as_fft2_shape. replace (Z.of_nat (mw cr) * 2 - 1 =? w + 1) with false by lia. replace (Z.of_nat (mw cr) * 2 - 1 >? w) with false by lia. cbn [bind].
  replace (Z.of_nat (mh cr) >? Z.of_nat (mh a)) with true by lia. reflexivity.
Qed.
Print Assumptions C60_nyquist_refuted.
(** Hermitian data of 3 rows and 4 columns; a number stands for its own conjugate. *)
Definition sym34 : mat Z := table 0 [[0; 1; 2; 1]; [3; 4; 5; 6]; [3; 6; 5; 4]].
Example C60_example : let junk := fun _ _ : nat => 99 in let cj := fun z : Z => z in
  hermitian cj sym34 /\ shown (as_rfft2_data sym34) = Ok [[0; 1; 2]; [3; 4; 5]; [3; 6; 5]] /\
  shown (let* h := as_rfft2_data sym34 in from_rfft2_data junk cj h (Some (3, 4))) = Ok (entries sym34) /\
  shown (let* h := as_rfft2_data sym34 in from_rfft2_data junk cj h None) = Ok [[0; 1; 2; 2; 1]; [3; 4; 5; 5; 6]; [3; 6; 5; 5; 4]] /\
  shown (as_rfft2_conj (-1) sym34) = Ok [[-1; 1; 2]; [-1; 4; 5]; [-1; 6; 5]] /\
  shown (as_rfft2_mask (Mat 3 4 (fun i j => (i =? 1)%nat && (j =? 3)%nat))) = Ok [[false; false; false]; [false; false; false]; [false; true; false]] /\
  shown (let* h := as_rfft2_data x45 in let* c := rfft2_crop junk h (Some 2) (Some 1) in from_rfft2_data junk cj c (Some (4, 5))) = Raise ValueError.
Proof.
  cbv zeta. split; [|repeat split; vm_compute; reflexivity].
  intros ki kj. unfold at_freq, freq. cbn [mh mw sym34 table length hd].
  change (Z.of_nat 3) with 3. change (Z.of_nat 4) with 4.
  assert (A : (ki mod 3 = 0 /\ (- ki) mod 3 = 0) \/ (ki mod 3 = 1 /\ (- ki) mod 3 = 2) \/ (ki mod 3 = 2 /\ (- ki) mod 3 = 1)) by lia.
  assert (B : (kj mod 4 = 0 /\ (- kj) mod 4 = 0) \/ (kj mod 4 = 1 /\ (- kj) mod 4 = 3) \/ (kj mod 4 = 2 /\ (- kj) mod 4 = 2) \/ (kj mod 4 = 3 /\ (- kj) mod 4 = 1)) by lia.
  destruct A as [[-> ->]|[[-> ->]|[-> ->]]]; destruct B as [[-> ->]|[[-> ->]|[[-> ->]|[-> ->]]]]; reflexivity.
Qed.

(* ------------------------------------------------------------------ *)
(** * C73: Fourier transforms of frames and videos *)
Definition real_frame (K : Fld) (x : mat K) : mat (Cx K) := Mat (mh x) (mw x) (fun i j => cofre (mat_at x i j)).
(** The transform of a real frame is Hermitian, and rfft2 data completed by from_rfft2_data is the full transform. *)
Theorem C73_complete (K : Fld) (W : nat -> Cx K) (junk : nat -> nat -> Cx K) (x : mat K) : (1 <= mh x)%nat -> (1 <= mw x)%nat -> is_root (mh x) (W (mh x)) -> is_root (mw x) (W (mw x)) ->
  exists full half back, _fft2 W (real_frame K x) = Ok full /\ hermitian conj full /\ _rfft2 W x = Ok half /\
    from_rfft2_data junk conj half (Some (Z.of_nat (mh x), Z.of_nat (mw x))) = Ok back /\ same back full.
Proof.
  intros H0 H1 R0 R1. set (full := Mat (mh x) (mw x) (dft2_at W (real_frame K x))). set (half := Mat (mh x) (mw x / 2 + 1) (dft2_at W (real_frame K x))).
  assert (HF : hermitian conj full) by (apply (@dft2_hermitian K W (real_frame K x)); try assumption; intros i j; apply conj_cofre).
  assert (N : ((mh x =? 0) || (mw x =? 0))%nat%bool = false) by lia.
  destruct (@complete_half _ junk conj full half H0 H1 HF eq_refl eq_refl ltac:(reflexivity)) as (back & E2 & S). exists full, half, back. split; [unfold _fft2; cbn [mh mw real_frame]; rewrite N; reflexivity|].
  split; [exact HF|]. split; [unfold _rfft2; rewrite N; reflexivity|]. split; [exact E2|exact S].
Qed.
Print Assumptions C73_complete.

(** Every frame of rfft2_video holds, at each kept frequency, the discrete Fourier transform of the frame of the video. *)
Theorem C73_rfft2_video (K : Fld) (W : nat -> Cx K) junk (video : gen (list (mat K))) kimax kjmax : 1 <= kimax -> 0 <= kjmax ->
  (forall frames x, In frames (yields video) -> In x frames -> kimax <= Z.of_nat (mh x) / 2 /\ (1 <= mw x)%nat /\ kjmax <= Z.of_nat (mw x) / 2) ->
  ending (rfft2_video W junk video (Some kimax) (Some kjmax)) = ending video /\
  Forall2 (Forall2 (fun x out => Z.of_nat (mh out) = 2 * kimax + 1 /\ Z.of_nat (mw out) = kjmax + 1 /\
      forall ki kj, - kimax <= ki <= kimax -> 0 <= kj <= kjmax -> at_freq out ki kj = dft2_at W (real_frame K x) (freq (mh x) ki) (freq (mw x) kj)))
    (yields video) (yields (rfft2_video W junk video (Some kimax) (Some kjmax))).
Proof.
  intros H1 H2. unfold rfft2_video. destruct video as [l e]. cbn [yields ending]. induction l as [|frames l IH]; intros H; [split; [reflexivity|constructor]|]. cbn [gen_each].
  assert (F : exists outs, map_res_v (fun frame => let* f := _rfft2 W frame in rfft2_crop junk f (Some kimax) (Some kjmax)) frames = Ok outs /\
     Forall2 (fun x out => Z.of_nat (mh out) = 2 * kimax + 1 /\ Z.of_nat (mw out) = kjmax + 1 /\ forall ki kj, - kimax <= ki <= kimax -> 0 <= kj <= kjmax -> at_freq out ki kj = dft2_at W (real_frame K x) (freq (mh x) ki) (freq (mw x) kj)) frames outs).
  { assert (HX : forall x, In x frames -> kimax <= Z.of_nat (mh x) / 2 /\ (1 <= mw x)%nat /\ kjmax <= Z.of_nat (mw x) / 2) by (intros x Hx; apply (H frames); [left; reflexivity|exact Hx]). clear H IH.
    induction frames as [|x t IH]; [exists []; split; [reflexivity|constructor]|]. destruct IH as (outs & E & F2); [intros; apply HX; right; assumption|]. destruct (HX x (or_introl eq_refl)) as (A1 & A2 & A3).
    cbn [map_res_v]. unfold _rfft2 at 1. replace ((mh x =? 0) || (mw x =? 0))%nat%bool with false by lia. cbn [bind].
    set (f := Mat (mh x) (mw x / 2 + 1) (dft2_at W (real_frame K x))).
    destruct (@C59_rfft2_crop _ junk f kimax kjmax) as (out & E1 & R & C & V); [cbn [mh f]; lia|cbn [mw f]; lia|].
    change (Mat (mh x) (mw x / 2 + 1) _) with f. rewrite E1. cbn [bind]. rewrite E. cbn [bind]. exists (out :: outs). split; [reflexivity|]. constructor; [|exact F2]. split; [exact R|]. split; [exact C|].
    intros ki kj Hi Hj. rewrite V by assumption. unfold at_freq. subst f. cbn [mh mw mat_at]. rewrite !(@freq_pos _ kj) by lia. reflexivity. }
  destruct F as (outs & -> & F2). destruct IH as [I1 I2]; [intros fr x Hfr; apply H; right; exact Hfr|]. cbn [yields ending]. split; [exact I1|]. constructor; assumption.
Qed.
Print Assumptions C73_rfft2_video.
Theorem C73_fft2_video (K : Fld) (W : nat -> Cx K) junk (video : gen (list (mat (Cx K)))) kimax kjmax : 1 <= kimax -> 1 <= kjmax ->
  (forall frames x, In frames (yields video) -> In x frames -> kimax <= Z.of_nat (mh x) / 2 /\ kjmax <= Z.of_nat (mw x) / 2) ->
  ending (fft2_video W junk video (Some kimax) (Some kjmax)) = ending video /\
  Forall2 (Forall2 (fun x out => Z.of_nat (mh out) = 2 * kimax + 1 /\ Z.of_nat (mw out) = 2 * kjmax + 1 /\
      forall ki kj, - kimax <= ki <= kimax -> - kjmax <= kj <= kjmax -> at_freq out ki kj = dft2_at W x (freq (mh x) ki) (freq (mw x) kj)))
    (yields video) (yields (fft2_video W junk video (Some kimax) (Some kjmax))).
Proof.
  intros H1 H2. unfold fft2_video. destruct video as [l e]. cbn [yields ending]. induction l as [|frames l IH]; intros H; [split; [reflexivity|constructor]|]. cbn [gen_each].
  assert (F : exists outs, map_res_v (fun frame => let* f := _fft2 W frame in fft2_crop junk f (Some kimax) (Some kjmax)) frames = Ok outs /\
     Forall2 (fun x out => Z.of_nat (mh out) = 2 * kimax + 1 /\ Z.of_nat (mw out) = 2 * kjmax + 1 /\ forall ki kj, - kimax <= ki <= kimax -> - kjmax <= kj <= kjmax -> at_freq out ki kj = dft2_at W x (freq (mh x) ki) (freq (mw x) kj)) frames outs).
  { assert (HX : forall x, In x frames -> kimax <= Z.of_nat (mh x) / 2 /\ kjmax <= Z.of_nat (mw x) / 2) by (intros x Hx; apply (H frames); [left; reflexivity|exact Hx]). clear H IH.
    induction frames as [|x t IH]; [exists []; split; [reflexivity|constructor]|]. destruct IH as (outs & E & F2); [intros; apply HX; right; assumption|]. destruct (HX x (or_introl eq_refl)) as (A1 & A2).
    cbn [map_res_v]. unfold _fft2 at 1. replace ((mh x =? 0) || (mw x =? 0))%nat%bool with false by lia. cbn [bind].
    destruct (@C59_fft2_crop _ junk (Mat (mh x) (mw x) (dft2_at W x)) kimax kjmax) as (out & E1 & R & C & V); [cbn [mh]; lia|cbn [mw]; lia|].
    rewrite E1. cbn [bind]. rewrite E. cbn [bind]. exists (out :: outs). split; [reflexivity|]. constructor; [|exact F2]. split; [exact R|]. split; [exact C|].
    intros ki kj Hi Hj. rewrite V by assumption. reflexivity. }
  destruct F as (outs & -> & F2). destruct IH as [I1 I2]; [intros fr x Hfr; apply H; right; exact Hfr|]. cbn [yields ending]. split; [exact I1|]. constructor; assumption.
Qed.
Print Assumptions C73_fft2_video.
(** A frame in which the cut-off does not fit ends the video with a ValueError, after the frames before it. *)
Theorem C73_too_small (K : Fld) (W : nat -> Cx K) junk l frames x l' e kimax kjmax : In x frames -> (1 <= mh x)%nat -> (1 <= mw x)%nat -> kimax > Z.of_nat (mh x) / 2 ->
  (forall frames' y, In frames' l -> In y frames' -> 1 <= kimax <= Z.of_nat (mh y) / 2 /\ (1 <= mw y)%nat /\ 0 <= kjmax <= Z.of_nat (mw y) / 2) ->
  ending (rfft2_video W junk (Gen (l ++ frames :: l') e) (Some kimax) (Some kjmax)) = Some ValueError /\
  length (yields (rfft2_video W junk (Gen (l ++ frames :: l') e) (Some kimax) (Some kjmax))) = length l.
Proof.
  intros Hx A1 A2 A3 H. unfold rfft2_video. cbn [yields ending].
  assert (Bad : map_res_v (fun frame => let* f := _rfft2 W frame in rfft2_crop junk f (Some kimax) (Some kjmax)) frames = Raise ValueError).
  { induction frames as [|y t IH]; [destruct Hx|]. cbn [map_res_v]. destruct Hx as [->|Hx].
    - unfold _rfft2 at 1. replace ((mh x =? 0) || (mw x =? 0))%nat%bool with false by lia. cbn [bind]. rewrite rfft2_crop_bad; [reflexivity|exact A1|]. intros [F _]. cbn [fits mh] in F. lia.
    - destruct (let* f := _rfft2 W y in _) as [v|ex] eqn:E; cbn [bind]; [rewrite (IH Hx); reflexivity|]. f_equal. revert E. unfold _rfft2. destruct (_ || _) eqn:Z; cbn [bind]; [congruence|].
      destruct (fits_dec (mh y) (Some kimax)) as [F|F]; [destruct (fits_half_dec (mw y / 2 + 1) (Some kjmax)) as [G|G]|].
      + match goal with |- rfft2_crop _ ?m _ _ = _ -> _ => destruct (@rfft2_crop_ok _ junk m (Some kimax) (Some kjmax)) as (o & -> & _) end; [cbn [mh]; lia|exact F|exact G|discriminate].
      + rewrite rfft2_crop_bad; [congruence|cbn [mh]; lia|]. cbn [mh mw]. tauto.
      + rewrite rfft2_crop_bad; [congruence|cbn [mh]; lia|]. cbn [mh mw]. tauto. }
  induction l as [|fr l IH]; cbn [app gen_each]; [rewrite Bad; split; reflexivity|].
  assert (Good : exists outs, map_res_v (fun frame => let* f := _rfft2 W frame in rfft2_crop junk f (Some kimax) (Some kjmax)) fr = Ok outs).
  { assert (HX : forall y, In y fr -> 1 <= kimax <= Z.of_nat (mh y) / 2 /\ (1 <= mw y)%nat /\ 0 <= kjmax <= Z.of_nat (mw y) / 2) by (intros y Hy; apply (H fr); [left; reflexivity|exact Hy]). clear H IH.
    induction fr as [|y t IH]; [exists []; reflexivity|]. destruct IH as (outs & E); [intros; apply HX; right; assumption|]. destruct (HX y (or_introl eq_refl)) as (B1 & B2 & B3).
    cbn [map_res_v]. unfold _rfft2 at 1. replace ((mh y =? 0) || (mw y =? 0))%nat%bool with false by lia. cbn [bind].
    match goal with |- context [rfft2_crop _ ?m (Some kimax) _] => destruct (@C59_rfft2_crop _ junk m kimax kjmax) as (out & -> & _) end; [cbn [mh]; lia|cbn [mw]; lia|]. cbn [bind]. rewrite E. cbn [bind]. eexists. reflexivity. }
  destruct Good as (outs & ->). destruct IH as [I1 I2]; [intros fr' y Hf; apply H; right; exact Hf|]. cbn [yields ending length]. split; [exact I1|]. rewrite I2. reflexivity.
Qed.
Print Assumptions C73_too_small.
(** normalize_fft: entry [0,0] becomes 1; multiplying the frame by a number does not change the result; twice is once. *)
Theorem C73_normalize (K : OFld) (x : mat (Cx K)) : (1 <= mh x)%nat -> (1 <= mw x)%nat -> mat_at x 0 0 <> c0 K ->
  exists y, normalize_fft_frame x = Ok y /\ mat_at y 0 0 = c1 K /\
    (forall s, s <> c0 K -> exists z, normalize_fft_frame (Mat (mh x) (mw x) (fun i j => cmul s (mat_at x i j))) = Ok z /\ same z y) /\
    (exists z, normalize_fft_frame y = Ok z /\ same z y).
Proof.
  intros H0 H1 N. unfold normalize_fft_frame at 1. replace ((mh x =? 0) || (mw x =? 0))%nat%bool with false by lia. eexists. split; [reflexivity|]. cbn [mat_at]. split; [apply cdiv_self; exact N|]. split.
  - intros s Hs. unfold normalize_fft_frame. cbn [mh mw]. replace ((mh x =? 0) || (mw x =? 0))%nat%bool with false by lia. eexists. split; [reflexivity|]. split; [reflexivity|]. split; [reflexivity|].
    intros i j _ _. cbn [mat_at]. apply cdiv_scale; assumption.
  - unfold normalize_fft_frame. cbn [mh mw]. replace ((mh x =? 0) || (mw x =? 0))%nat%bool with false by lia. eexists. split; [reflexivity|]. split; [reflexivity|]. split; [reflexivity|].
    intros i j _ _. cbn [mat_at]. rewrite (@cdiv_self K _ N). apply cdiv_1.
Qed.
Print Assumptions C73_normalize.
(** A frame without pixels has no entry [0,0]: the video ends there with an IndexError. *)
Theorem C73_normalize_empty (K : OFld) (x : mat (Cx K)) : (mh x = 0 \/ mw x = 0)%nat <-> normalize_fft_frame x = Raise IndexError.
Proof. unfold normalize_fft_frame. destruct ((mh x =? 0) || (mw x =? 0))%nat%bool eqn:E; split; try discriminate; try reflexivity; lia. Qed.
Print Assumptions C73_normalize_empty.
(** A frame of 2 rows and 4 columns, its transform, the half of it, and both cut at frequency 1. *)
Definition fr24 : mat QcF := table (q 0) [[q 1; q 2; q 3; q 4]; [q 0; q 1; q 0; q 2]].
Definition showm (r : res (mat (Cx QcF))) := match r with Ok x => Ok (map (map showc) (entries x)) | Raise e => Raise e end.
Example C73_example : is_root 2 (Wq 2) /\ is_root 4 (Wq 4) /\
  showm (_rfft2 Wq fr24) = Ok [[(13, 1, (0, 1)); (-2, 1, (3, 1)); (-5, 1, (0, 1))]; [(7, 1, (0, 1)); (-2, 1, (1, 1)); (1, 1, (0, 1))]] /\
  map (map (fun x => showm (Ok x))) (yields (rfft2_video Wq (fun _ _ => cz 9 9) (Gen [[fr24]] None) (Some 1) (Some 1))) =
    [[Ok [[(13, 1, (0, 1)); (-2, 1, (3, 1))]; [(7, 1, (0, 1)); (-2, 1, (1, 1))]; [(7, 1, (0, 1)); (-2, 1, (1, 1))]]]] /\
  showm (let* f := _rfft2 Wq fr24 in normalize_fft_frame f) = Ok [[(1, 1, (0, 1)); (-2, 13, (3, 13)); (-5, 13, (0, 1))]; [(7, 13, (0, 1)); (-2, 13, (1, 13)); (1, 13, (0, 1))]].
Proof. split; [exact Wq2|]. split; [exact Wq4|]. repeat split; vm_compute; reflexivity. Qed.
