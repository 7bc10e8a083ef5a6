(** C83: filtering of frames at a wave vector (dls, dls_video). *)
From Verif Require Import Base Ordered PairSpec FftModel FftProofs VideoModel MapModel MapProofs Fft2Model Fft2Proofs DlsModel DlsProofs Prop_Map Prop_Fft Examples.
From Coq Require Import Lia ZifyBool ZifyNat Setoid.
Set Implicit Arguments.
Open Scope nat_scope.

(** The plane wave of wave vector (ki, kj) in a frame of [h] rows and [w] columns, at row [r] and
    column [c]: exp(-2 pi i (ki r / h + kj c / w)). *)
Definition wave (K : Fld) (W : nat -> Cx K) (h w : nat) (ki kj : Z) (r c : nat) : Cx K :=
  cmul (cpow (W h) (freq h ki * r)) (cpow (W w) (freq w kj * c)).
(** A wave vector that the code accepts as an index *)
Definition kvec_in (h w : nat) (k : Z * Z) : Prop := (- Z.of_nat h <= fst k < Z.of_nat h /\ - Z.of_nat w <= snd k < Z.of_nat w)%Z.
(** A frame of [h] rows and [w] columns and the roots of unity needed to transform it *)
Definition transforms (K : Fld) (W : nat -> Cx K) (h w : nat) : Prop := 1 <= h /\ 1 <= w /\ is_root h (W h) /\ is_root w (W w).

Lemma index_freq n z : (- Z.of_nat n <= z < Z.of_nat n)%Z -> py_index n z = Some (freq n z) /\ freq n z < n.
Proof.
  intros H. unfold py_index. cbv zeta. destruct (Z.ltb_spec z 0).
  - rewrite freq_neg by lia. replace ((0 <=? z + Z.of_nat n) && (z + Z.of_nat n <? Z.of_nat n))%Z with true by lia. split; [f_equal; lia|lia].
  - rewrite freq_pos by lia. replace ((0 <=? z) && (z <? Z.of_nat n))%Z with true by lia. split; [reflexivity|lia].
Qed.
Lemma freq_shift n r i : i < n -> freq n (Z.of_nat r - Z.of_nat i) = (r + (n - i)) mod n.
Proof.
  intros H. unfold freq. rewrite <- (Z_mod_plus_full _ 1). replace (Z.of_nat r - Z.of_nat i + 1 * Z.of_nat n)%Z with (Z.of_nat (r + (n - i))) by lia.
  rewrite <- Nat2Z.inj_mod. apply Nat2Z.id.
Qed.

Section Parts.
  Variable K : Fld.
  Notation C := (Cx K).
  Variable W : nat -> C.
  Add Ring CdlsP : (c_ring K).
  Local Ltac cring := match goal with |- @eq _ ?a ?b => change (@eq C a b) end; ring.

  Lemma build_kf_ok h w k : 1 <= h -> 1 <= w -> kvec_in h w k ->
    exists kf, _build_kf W h w k = Ok kf /\ mh kf = h /\ mw kf = w /\ forall r c, mat_at kf r c = wave W h w (fst k) (snd k) r c.
  Proof.
    intros Hh Hw [H1 H2]. destruct k as [ki kj]. cbn [fst snd] in *. destruct (@index_freq h ki H1) as [E1 B1]. destruct (@index_freq w kj H2) as [E2 B2].
    unfold _build_kf, mset. cbn [fst snd indices mh mw]. rewrite E1, E2. cbn [bind mh mw length Nat.eqb orb andb]. unfold _fft2. cbn [mh mw].
    replace ((h =? 0) || (w =? 0)) with false by lia. eexists. split; [reflexivity|]. split; [reflexivity|]. split; [reflexivity|].
    intros r c. cbn [mat_at]. unfold dft2_at. cbn [mh mw mat_at position].
    transitivity (Sum (cmon K) (seq 0 h) (fun i => if i =? freq h ki then wave W h w ki kj r c else m0 (cmon K))); [|apply Sum_single; lia].
    apply Sum_ext. intros i Hi. destruct (Nat.eqb_spec (freq h ki) i) as [<-|Ni].
    - rewrite Nat.eqb_refl. transitivity (Sum (cmon K) (seq 0 w) (fun j => if j =? freq w kj then wave W h w ki kj r c else m0 (cmon K))); [|apply Sum_single; lia].
      apply Sum_ext. intros j Hj. destruct (Nat.eqb_spec (freq w kj) j) as [<-|Nj].
      + rewrite Nat.eqb_refl. unfold wave. cring.
      + replace (j =? freq w kj) with false by lia. change (m0 (cmon K)) with (c0 K). cring.
    - replace (i =? freq h ki) with false by lia. apply Sum_zero. intros j _. change (m0 (cmon K)) with (c0 K). cring.
  Qed.
  Lemma bdim_same n : bdim n n = Ok n.
  Proof. unfold bdim. rewrite Nat.eqb_refl. reflexivity. Qed.
  Lemma spread_same n i : i < n -> spread n i = i.
  Proof. intros H. unfold spread. destruct (Nat.eqb_spec n 1); [lia|reflexivity]. Qed.
  Lemma mat_mul_ok (x y : mat C) : mh x = mh y -> mw x = mw y ->
    exists z, mat_mul x y = Ok z /\ mh z = mh x /\ mw z = mw x /\ forall r c, r < mh x -> c < mw x -> mat_at z r c = cmul (mat_at x r c) (mat_at y r c).
  Proof.
    intros Eh Ew. unfold mat_mul. rewrite <- Eh, <- Ew, !bdim_same. cbn [bind]. eexists. split; [reflexivity|]. split; [reflexivity|]. split; [reflexivity|].
    intros r c Hr Hc. cbn [mat_at]. rewrite !spread_same by assumption. reflexivity.
  Qed.
  Lemma dft2_ext (x y : mat C) k l : mh x = mh y -> mw x = mw y -> (forall i j, i < mh x -> j < mw x -> mat_at x i j = mat_at y i j) -> dft2_at W x k l = dft2_at W y k l.
  Proof.
    intros Eh Ew E. unfold dft2_at. rewrite <- Eh, <- Ew. apply Sum_ext. intros i Hi. apply in_seq in Hi. apply Sum_ext. intros j Hj. apply in_seq in Hj. rewrite E by lia. reflexivity.
  Qed.
  Lemma idft2_ext (x y : mat C) k l : mh x = mh y -> mw x = mw y -> (forall i j, i < mh x -> j < mw x -> mat_at x i j = mat_at y i j) -> idft2_at W x k l = idft2_at W y k l.
  Proof.
    intros Eh Ew E. unfold idft2_at. rewrite <- Eh, <- Ew. f_equal. apply Sum_ext. intros i Hi. apply in_seq in Hi. apply Sum_ext. intros j Hj. apply in_seq in Hj. rewrite E by lia. reflexivity.
  Qed.
  (** the window times the plane wave *)
  Definition filter_at (window : mat C) (k : Z * Z) (r c : nat) : C := cmul (mat_at window r c) (wave W (mh window) (mw window) (fst k) (snd k) r c).
  Lemma kernel_ok (window : mat C) k : 1 <= mh window -> 1 <= mw window -> kvec_in (mh window) (mw window) k ->
    exists kernel, (let* kf := _build_kf W (mh window) (mw window) k in _build_kernel W window kf) = Ok kernel /\ mh kernel = mh window /\ mw kernel = mw window /\
      forall r c, mat_at kernel r c = dft2_at W (Mat (mh window) (mw window) (filter_at window k)) r c.
  Proof.
    intros Hh Hw Hk. destruct (build_kf_ok Hh Hw Hk) as (kf & -> & E1 & E2 & V). cbn [bind]. unfold _build_kernel.
    destruct (@mat_mul_ok window kf) as (z & -> & Z1 & Z2 & VZ); [congruence|congruence|]. cbn [bind]. unfold _fft2. rewrite Z1, Z2.
    replace ((mh window =? 0) || (mw window =? 0)) with false by lia. eexists. split; [reflexivity|]. split; [reflexivity|]. split; [reflexivity|].
    intros r c. cbn [mat_at]. apply dft2_ext; [exact Z1|exact Z2|]. intros i j Hi Hj. cbn [mat_at]. rewrite VZ by congruence. unfold filter_at. rewrite V. reflexivity.
  Qed.
  Lemma spectrum_ok (frame kernel : mat C) : 1 <= mh frame -> 1 <= mw frame -> mh kernel = mh frame -> mw kernel = mw frame ->
    exists s, (let* fout := _fft2 W frame in mat_mul fout kernel) = Ok s /\ mh s = mh frame /\ mw s = mw frame /\
      forall k l, k < mh frame -> l < mw frame -> mat_at s k l = cmul (dft2_at W frame k l) (mat_at kernel k l).
  Proof.
    intros Hh Hw Eh Ew. unfold _fft2. replace ((mh frame =? 0) || (mw frame =? 0)) with false by lia. cbn [bind].
    destruct (@mat_mul_ok (Mat (mh frame) (mw frame) (dft2_at W frame)) kernel) as (z & Ez & Z1 & Z2 & VZ); [cbn; congruence|cbn; congruence|].
    exists z. cbn [mh mw mat_at] in *. auto.
  Qed.

  Lemma rearrange (a b c d e : C) : cmul a (cmul (c1 K) (cmul (cmul b c) (cmul d e))) = cmul (cmul a (cmul b d)) (cmul c e).
  Proof. ring. Qed.
  Lemma times_ones (a : C) : cmul a (cmul (c1 K) (cmul (c1 K) (c1 K))) = a.
  Proof. ring. Qed.
  Lemma times_zero (a b : C) : cmul a (cmul (c0 K) b) = m0 (cmon K).
  Proof. change (m0 (cmon K)) with (c0 K). ring. Qed.
  Lemma pow_cong n (w : C) a b c d : n <> 0 -> is_root n w -> a + c * n = b + d * n -> cpow w a = cpow w b.
  Proof.
    intros Hn Hw E. rewrite (@pow_mod K n w Hn Hw a), (@pow_mod K n w Hn Hw b). f_equal. rewrite <- (Nat.mod_add a c n Hn), <- (Nat.mod_add b d n Hn), E. reflexivity.
  Qed.
  Lemma freq_opp_sum n k : 1 <= n -> exists e, freq n (- k) + freq n k = n * e.
  Proof. intros H. pose proof (freq_opp W k H) as E. apply Nat.mod_divides in E; [|lia]. destruct E as [e E]. exists e. exact E. Qed.
  Lemma wave_shift n (w : C) k r i : 1 <= n -> is_root n w -> i < n ->
    cpow w (freq n k * freq n (Z.of_nat r - Z.of_nat i)) = cmul (cpow w (i * freq n (- k))) (cpow w (freq n k * r)).
  Proof.
    intros Hn Hw Hi. rewrite freq_shift by exact Hi. rewrite <- cpow_add. destruct (freq_opp_sum k Hn) as [e He].
    pose proof (Nat.div_mod (r + (n - i)) n ltac:(lia)) as D.
    apply (@pow_cong n w _ _ (freq n k * ((r + (n - i)) / n) + i * e) (freq n k)); [lia|exact Hw|].
    assert (X : r + n = n * ((r + (n - i)) / n) + (r + (n - i)) mod n + i) by lia. clear D.
    generalize dependent ((r + (n - i)) mod n). generalize dependent ((r + (n - i)) / n). generalize dependent (freq n k). generalize dependent (freq n (- k)). intros a b He q m X.
    transitivity (b * (n * q + m + i) + i * e * n - b * i); [nia|]. rewrite <- X. transitivity (b * (r + n) + i * (a + b) - b * i); [rewrite He; nia|]. nia.
  Qed.
  Variable junk : nat -> nat -> C.
  Lemma convolve_ok (frame kernel : mat C) kimax kjmax : transforms W (mh frame) (mw frame) -> mh kernel = mh frame -> mw kernel = mw frame ->
    fits (mh frame) kimax -> fits (mw frame) kjmax ->
    exists s out, fft2_crop junk s kimax kjmax = Ok out /\ mh s = mh frame /\ mw s = mw frame /\ mh out = cropped (mh frame) kimax /\ mw out = cropped (mw frame) kjmax /\
      (forall k l, k < mh frame -> l < mw frame -> mat_at s k l = cmul (dft2_at W frame k l) (mat_at kernel k l)) /\
      (forall ki kj, kept kimax ki -> kept kjmax kj -> at_freq out ki kj = at_freq s ki kj) /\
      _convolve_fft W junk frame kernel kimax kjmax = Ok (Mat (mh out) (mw out) (idft2_at W out)).
  Proof.
    intros (Hh & Hw & Rh & Rw) Eh Ew F1 F2. destruct (spectrum_ok frame kernel Hh Hw Eh Ew) as (s & E & S1 & S2 & V).
    destruct (@fft2_crop_ok C junk s kimax kjmax) as (out & E2 & O1 & O2 & V2); try (rewrite ?S1, ?S2; assumption).
    exists s, out. rewrite S1 in O1. rewrite S2 in O2. repeat (split; [assumption|]).
    unfold _convolve_fft. unfold bind in E. unfold bind. destruct (_fft2 W frame) as [f|]; [|discriminate]. rewrite E. rewrite E2. unfold _ifft2.
    assert (P : mh out <> 0 /\ mw out <> 0).
    { rewrite O1, O2. split; [destruct kimax; cbn [cropped fits] in *; lia|destruct kjmax; cbn [cropped fits] in *; lia]. }
    replace ((mh out =? 0) || (mw out =? 0)) with false by lia. reflexivity.
  Qed.

  Lemma build_kf_bad h w k : ~ kvec_in h w k -> _build_kf W h w k = Raise IndexError.
  Proof.
    clear junk. intros H. unfold kvec_in in H. unfold _build_kf, mset. cbn [indices mh mw]. unfold py_index. cbv zeta.
    destruct ((0 <=? (if fst k <? 0 then fst k + Z.of_nat h else fst k)) && ((if fst k <? 0 then fst k + Z.of_nat h else fst k) <? Z.of_nat h))%Z eqn:E1; cbn [bind]; [|reflexivity].
    destruct ((0 <=? (if snd k <? 0 then snd k + Z.of_nat w else snd k)) && ((if snd k <? 0 then snd k + Z.of_nat w else snd k) <? Z.of_nat w))%Z eqn:E2; cbn [bind]; [|reflexivity].
    exfalso. apply H. destruct (Z.ltb_spec (fst k) 0), (Z.ltb_spec (snd k) 0); lia.
  Qed.
  Lemma cmul_comm' (a b : C) : cmul a b = cmul b a.
  Proof. ring. Qed.
  Lemma map_res_v_ext A B (f g : A -> res B) l : (forall x, f x = g x) -> map_res_v f l = map_res_v g l.
  Proof. intros H. induction l as [|x l IH]; [reflexivity|]. cbn [map_res_v]. rewrite H, IH. reflexivity. Qed.
  Lemma map_res_v_ext_in A B (f g : A -> res B) l : (forall x, In x l -> f x = g x) -> map_res_v f l = map_res_v g l.
  Proof. intros H. induction l as [|x l IH]; [reflexivity|]. cbn [map_res_v]. rewrite H by (left; reflexivity). rewrite IH by (intros; apply H; right; assumption). reflexivity. Qed.
  Lemma gen_each_ext A B (f g : A -> res B) l e : (forall x, f x = g x) -> gen_each f l e = gen_each g l e.
  Proof. intros H. induction l as [|x l IH]; [reflexivity|]. cbn [gen_each]. rewrite H, IH. reflexivity. Qed.
  Lemma map_res_v_ok A B (f : A -> res B) (g : A -> B) l : (forall x, In x l -> f x = Ok (g x)) -> map_res_v f l = Ok (map g l).
  Proof. intros H. induction l as [|x l IH]; [reflexivity|]. cbn [map_res_v map]. rewrite H by (left; reflexivity). cbn [bind]. rewrite IH by (intros; apply H; right; assumption). reflexivity. Qed.
  Lemma map_res_v_map A B D (f : B -> res D) (g : A -> B) l : map_res_v f (map g l) = map_res_v (fun x => f (g x)) l.
  Proof. induction l as [|x l IH]; [reflexivity|]. cbn [map_res_v map]. rewrite IH. reflexivity. Qed.

  (** The kernels of several windows and wave vectors *)
  Lemma seq_map_nth A B (f : A -> B) d l : map (fun i => f (nth i l d)) (seq 0 (length l)) = map f l.
  Proof.
    induction l as [|x l IH]; [reflexivity|]. cbn [length seq map nth]. f_equal. rewrite <- seq_shift, map_map. exact IH.
  Qed.
  Lemma map_res_v_nth A B (f : A -> res B) d l : map_res_v (fun i => f (nth i l d)) (seq 0 (length l)) = map_res_v f l.
  Proof.
    induction l as [|x l IH]; [reflexivity|]. cbn [length seq map_res_v nth]. rewrite <- seq_shift, map_res_v_map. rewrite IH. reflexivity.
  Qed.
  Definition kf_of (window : mat C) (k : Z * Z) : mat C := match _build_kf W (mh window) (mw window) k with Ok x => x | Raise _ => window end.
  Definition prod_of (window kf : mat C) : mat C := match mat_mul window kf with Ok x => x | Raise _ => window end.
  Definition ker_of (window : mat C) (k : Z * Z) : mat C := match _fft2 W (prod_of window (kf_of window k)) with Ok x => x | Raise _ => window end.
  Lemma ker_of_ok (window : mat C) k : 1 <= mh window -> 1 <= mw window -> kvec_in (mh window) (mw window) k ->
    _build_kf W (mh window) (mw window) k = Ok (kf_of window k) /\ mat_mul window (kf_of window k) = Ok (prod_of window (kf_of window k)) /\
    _fft2 W (prod_of window (kf_of window k)) = Ok (ker_of window k).
  Proof.
    intros Hh Hw Hk. destruct (kernel_ok window Hh Hw Hk) as (kernel & E & _). unfold ker_of, prod_of, kf_of. unfold _build_kernel, bind in E.
    destruct (_build_kf W (mh window) (mw window) k) as [kf|]; [|discriminate]. destruct (mat_mul window kf) as [p|]; [|discriminate].
    destruct (_fft2 W p); [|discriminate]. repeat split.
  Qed.
  Lemma dls_ker (frame window : mat C) k kimax kjmax : 1 <= mh window -> 1 <= mw window -> kvec_in (mh window) (mw window) k ->
    dls W junk frame window k kimax kjmax = _convolve_fft W junk frame (ker_of window k) kimax kjmax.
  Proof.
    intros Hh Hw Hk. destruct (ker_of_ok window Hh Hw Hk) as (E1 & E2 & E3). unfold dls, _build_kernel. rewrite E1. cbn [bind]. rewrite E2. cbn [bind]. rewrite E3. reflexivity.
  Qed.
  Lemma kfs_ok (window : mat C) kvecs : 1 <= mh window -> 1 <= mw window -> Forall (kvec_in (mh window) (mw window)) kvecs ->
    map_res_v (_build_kf W (mh window) (mw window)) kvecs = Ok (map (kf_of window) kvecs).
  Proof.
    intros Hh Hw HF. apply map_res_v_ok. intros k Hin. rewrite Forall_forall in HF. apply ker_of_ok; auto.
  Qed.
  Lemma many_windows (frame window : mat C) (windows : list (mat C)) kvecs kimax kjmax : 1 <= mh window -> 1 <= mw window -> kvecs <> [] -> Forall (kvec_in (mh window) (mw window)) kvecs ->
    length windows = length kvecs -> Forall (fun x => mh x = mh window /\ mw x = mw window) windows ->
    dls_many W junk frame windows kvecs kimax kjmax = map_res_v (fun p => dls W junk frame (fst p) (snd p) kimax kjmax) (combine windows kvecs).
  Proof.
    intros Hh Hw Hn HK HL HW.
    assert (HF : Forall (fun p => (mh (fst p) = mh window /\ mw (fst p) = mw window) /\ kvec_in (mh window) (mw window) (snd p)) (combine windows kvecs)).
    { apply Forall_forall. intros [x k] Hin. rewrite Forall_forall in HK, HW. split; [apply HW; eapply in_combine_l; exact Hin|apply HK; eapply in_combine_r; exact Hin]. }
    unfold dls_many. destruct kvecs as [|k0 kvecs']; [contradiction|]. destruct windows as [|w0 windows']; [discriminate|].
    set (kvecs := k0 :: kvecs') in *. set (windows := w0 :: windows') in *.
    assert (H0 : mh w0 = mh window /\ mw w0 = mw window) by (rewrite Forall_forall in HW; apply HW; left; reflexivity). destruct H0 as [A0 B0]. rewrite A0, B0, kfs_ok by assumption. cbn [bind].
    unfold stack_mul. rewrite map_length, HL. unfold bdim at 1. rewrite Nat.eqb_refl. cbn [bind].
    set (ps := combine windows kvecs) in *.
    assert (LP : length ps = length kvecs) by (unfold ps; rewrite combine_length; lia).
    assert (SP : forall i, i < length kvecs -> spread (length kvecs) i = i) by (intros i Hi; unfold spread; destruct (Nat.eqb_spec (length kvecs) 1); lia).
    assert (EQ : map_res_v (fun i => mat_mul (nth (spread (length kvecs) i) windows (Mat 0 0 junk)) (nth (spread (length kvecs) i) (map (kf_of window) kvecs) (Mat 0 0 junk))) (seq 0 (length kvecs)) =
      map_res_v (fun p => mat_mul (fst p) (kf_of window (snd p))) ps).
    { rewrite <- (map_res_v_nth (fun p => mat_mul (fst p) (kf_of window (snd p))) (Mat 0 0 junk, (0%Z, 0%Z)) ps). rewrite LP. apply map_res_v_ext_in. intros i Hi. apply in_seq in Hi.
      rewrite SP by lia. unfold ps. rewrite combine_nth by exact HL. cbn [fst snd]. f_equal.
      rewrite (nth_indep _ _ (kf_of window (0%Z, 0%Z))) by (rewrite map_length; lia). apply (map_nth (kf_of window)). }
    rewrite EQ. clear EQ.
    assert (KF : forall p, In p ps -> kf_of window (snd p) = kf_of (fst p) (snd p)).
    { intros p Hin. rewrite Forall_forall in HF. destruct (HF p Hin) as ((X & Y) & Z). unfold kf_of. rewrite X, Y. destruct (build_kf_ok Hh Hw Z) as (kf & -> & _). reflexivity. }
    assert (IN : forall p, In p ps -> 1 <= mh (fst p) /\ 1 <= mw (fst p) /\ kvec_in (mh (fst p)) (mw (fst p)) (snd p)).
    { intros p Hin. rewrite Forall_forall in HF. destruct (HF p Hin) as ((X & Y) & Z). rewrite X, Y. auto. }
    rewrite (@map_res_v_ok _ _ _ (fun p => prod_of (fst p) (kf_of (fst p) (snd p)))); [cbn [bind]|].
    2:{ intros p Hin. rewrite KF by exact Hin. destruct (IN p Hin) as (X & Y & Z). apply (ker_of_ok (fst p) X Y Z). }
    rewrite map_res_v_map. rewrite (@map_res_v_ok _ _ _ (fun p => ker_of (fst p) (snd p))); [cbn [bind]|].
    2:{ intros p Hin. destruct (IN p Hin) as (X & Y & Z). apply (ker_of_ok (fst p) X Y Z). }
    rewrite map_res_v_map. apply map_res_v_ext_in. intros p Hin. destruct (IN p Hin) as (X & Y & Z). rewrite dls_ker by assumption. reflexivity.
  Qed.
  Lemma many_one (frame window : mat C) kvecs kimax kjmax : 1 <= mh window -> 1 <= mw window -> kvecs <> [] -> Forall (kvec_in (mh window) (mw window)) kvecs ->
    dls_many W junk frame [window] kvecs kimax kjmax = map_res_v (fun k => dls W junk frame window k kimax kjmax) kvecs.
  Proof.
    intros Hh Hw Hn HK. unfold dls_many. destruct kvecs as [|k0 kvecs']; [contradiction|]. set (kvecs := k0 :: kvecs') in *. rewrite kfs_ok by assumption. cbn [bind].
    unfold stack_mul. rewrite map_length. cbn [length].
    assert (B : bdim 1 (length kvecs) = Ok (length kvecs)) by (unfold bdim; destruct (Nat.eqb_spec 1 (length kvecs)) as [<-|]; reflexivity). rewrite B. cbn [bind]. clear B.
    assert (SP : forall i, i < length kvecs -> spread (length kvecs) i = i) by (intros i Hi; unfold spread; destruct (Nat.eqb_spec (length kvecs) 1); lia).
    assert (EQ : map_res_v (fun i => mat_mul (nth (spread 1 i) [window] (Mat 0 0 junk)) (nth (spread (length kvecs) i) (map (kf_of window) kvecs) (Mat 0 0 junk))) (seq 0 (length kvecs)) =
      map_res_v (fun k => mat_mul window (kf_of window k)) kvecs).
    { rewrite <- (map_res_v_nth (fun k => mat_mul window (kf_of window k)) (0%Z, 0%Z) kvecs). apply map_res_v_ext_in. intros i Hi. apply in_seq in Hi.
      rewrite SP by lia. cbn [spread Nat.eqb nth]. f_equal.
      rewrite (nth_indep _ _ (kf_of window (0%Z, 0%Z))) by (rewrite map_length; lia). apply (map_nth (kf_of window)). }
    rewrite EQ. clear EQ. rewrite Forall_forall in HK.
    rewrite (@map_res_v_ok _ _ _ (fun k => prod_of window (kf_of window k))); [cbn [bind]|intros k Hin; apply (ker_of_ok window Hh Hw (HK k Hin))].
    rewrite map_res_v_map. rewrite (@map_res_v_ok _ _ _ (ker_of window)); [cbn [bind]|intros k Hin; apply (ker_of_ok window Hh Hw (HK k Hin))].
    rewrite map_res_v_map. apply map_res_v_ext_in. intros k Hin. rewrite dls_ker by auto. reflexivity.
  Qed.
End Parts.

(* ------------------------------------------------------------------ *)
(** The result of dls is the cyclic convolution of the frame with the window times the plane wave. *)
Theorem C83_convolution (K : Fld) (W : nat -> Cx K) junk (frame window : mat (Cx K)) k :
  transforms W (mh frame) (mw frame) -> mh window = mh frame -> mw window = mw frame -> kvec_in (mh frame) (mw frame) k ->
  exists out, dls W junk frame window k None None = Ok out /\ mh out = mh frame /\ mw out = mw frame /\
    forall r c, r < mh frame -> c < mw frame -> mat_at out r c =
      Sum (cmon K) (seq 0 (mh frame)) (fun i => Sum (cmon K) (seq 0 (mw frame)) (fun j =>
        let dr := freq (mh frame) (Z.of_nat r - Z.of_nat i) in
        let dc := freq (mw frame) (Z.of_nat c - Z.of_nat j) in
        cmul (mat_at frame i j) (cmul (mat_at window dr dc) (wave W (mh frame) (mw frame) (fst k) (snd k) dr dc)))).
Proof.
  intros HT Eh Ew Hk. pose proof HT as (Hh & Hw & Rh & Rw). rewrite <- Eh, <- Ew in Hk. destruct (@kernel_ok K W window k) as (kernel & E & K1 & K2 & VK); [lia|lia|exact Hk|].
  destruct (@convolve_ok K W junk frame kernel None None HT) as (s & o & Ec & S1 & S2 & O1 & O2 & VS & VO & EE); [congruence|congruence|exact Logic.I|exact Logic.I|].
  unfold dls. unfold bind in E |- *. destruct (_build_kf W (mh window) (mw window) k) as [kf|]; [|discriminate]. rewrite E, EE.
  eexists. split; [reflexivity|]. cbn [mh mw mat_at]. split; [exact O1|]. split; [exact O2|]. intros r c Hr Hc.
  cbn [fft2_crop] in Ec. injection Ec as <-.
  pose (g := Mat (mh window) (mw window) (filter_at W window k)).
  transitivity (idft2_at W (Mat (mh frame) (mw frame) (fun k l => cmul (dft2_at W frame k l) (dft2_at W g k l))) r c).
  - apply idft2_ext; [exact S1|exact S2|]. intros i j Hi Hj. cbn [mat_at]. rewrite VS by congruence. rewrite VK. reflexivity.
  - rewrite (@conv2 K W frame g) by (cbn; (lia || assumption)). apply Sum_ext. intros i Hi. apply in_seq in Hi. apply Sum_ext. intros j Hj. apply in_seq in Hj. cbv zeta.
    rewrite !freq_shift by lia. cbn [mat_at g]. unfold filter_at. rewrite Eh, Ew. reflexivity.
Qed.
Print Assumptions C83_convolution.
(** With a constant window one Fourier component is left: that of wave vector -k (the transform at
    k is conjugate to it for real frames). *)
Theorem C83_constant_window (K : Fld) (W : nat -> Cx K) junk (frame window : mat (Cx K)) k :
  transforms W (mh frame) (mw frame) -> mh window = mh frame -> mw window = mw frame -> kvec_in (mh frame) (mw frame) k ->
  (forall i j, mat_at window i j = c1 K) ->
  exists out, dls W junk frame window k None None = Ok out /\
    forall r c, r < mh frame -> c < mw frame ->
      mat_at out r c = cmul (dft2_at W frame (freq (mh frame) (- fst k)) (freq (mw frame) (- snd k))) (wave W (mh frame) (mw frame) (fst k) (snd k) r c) /\
      ((forall i j, cim (mat_at frame i j) = f0 K) ->
       mat_at out r c = conj (cmul (dft2_at W frame (freq (mh frame) (fst k)) (freq (mw frame) (snd k))) (conj (wave W (mh frame) (mw frame) (fst k) (snd k) r c)))).
Proof.
  intros HT Eh Ew Hk H1. destruct (@C83_convolution K W junk frame window k HT Eh Ew Hk) as (out & E & O1 & O2 & V). exists out. split; [exact E|]. intros r c Hr Hc.
  destruct HT as (Hh & Hw & Rh & Rw).
  assert (A : mat_at out r c = cmul (dft2_at W frame (freq (mh frame) (- fst k)) (freq (mw frame) (- snd k))) (wave W (mh frame) (mw frame) (fst k) (snd k) r c)).
  { rewrite V by assumption. unfold dft2_at. rewrite Sum_cmul_r. apply Sum_ext. intros i Hi. apply in_seq in Hi. rewrite Sum_cmul_r. apply Sum_ext. intros j Hj. apply in_seq in Hj. cbv zeta.
    rewrite H1. unfold wave. rewrite !wave_shift by (lia || assumption). apply rearrange. }
  split; [exact A|]. intros Hre. rewrite A, conj_mul, conj_conj. f_equal. apply (@dft2_hermitian K W frame Hh Hw Rh Rw).
  intros i j. pose proof (Hre i j) as Z. destruct (mat_at frame i j) as [a b]. cbn in Z. subst b. apply conj_cofre.
Qed.
Print Assumptions C83_constant_window.
(** A window that is one pixel wide leaves the frame as it is. *)
Theorem C83_point_window (K : Fld) (W : nat -> Cx K) junk (frame window : mat (Cx K)) k :
  transforms W (mh frame) (mw frame) -> mh window = mh frame -> mw window = mw frame -> kvec_in (mh frame) (mw frame) k ->
  (forall i j, mat_at window i j = if (i =? 0) && (j =? 0) then c1 K else c0 K) ->
  exists out, dls W junk frame window k None None = Ok out /\ forall r c, r < mh frame -> c < mw frame -> mat_at out r c = mat_at frame r c.
Proof.
  intros HT Eh Ew Hk H1. destruct (@C83_convolution K W junk frame window k HT Eh Ew Hk) as (out & E & O1 & O2 & V). exists out. split; [exact E|]. intros r c Hr Hc. rewrite V by assumption.
  assert (Z : forall n r i, r < n -> i < n -> (freq n (Z.of_nat r - Z.of_nat i) =? 0) = (i =? r)).
  { intros n a b Ha Hb. unfold freq. destruct (Nat.eqb_spec b a) as [->|N]; [rewrite Z.sub_diag, Z.mod_0_l by lia; reflexivity|]. apply Nat.eqb_neq. intros F.
    assert (F' : ((Z.of_nat a - Z.of_nat b) mod Z.of_nat n = 0)%Z) by (pose proof (Z.mod_pos_bound (Z.of_nat a - Z.of_nat b) (Z.of_nat n)); lia). apply Z.mod_divide in F'; [|lia]. destruct F' as [q F']. assert (q = 0)%Z by nia. subst q. lia. }
  transitivity (Sum (cmon K) (seq 0 (mh frame)) (fun i => if i =? r then mat_at frame r c else m0 (cmon K))); [|apply Sum_single; lia].
  apply Sum_ext. intros i Hi. apply in_seq in Hi. destruct (Nat.eqb_spec i r) as [->|Ni].
  - transitivity (Sum (cmon K) (seq 0 (mw frame)) (fun j => if j =? c then mat_at frame r c else m0 (cmon K))); [|apply Sum_single; lia].
    apply Sum_ext. intros j Hj. apply in_seq in Hj. cbv zeta. rewrite H1, !Z by lia. rewrite Nat.eqb_refl. cbn [andb]. destruct (Nat.eqb_spec j c) as [->|Nj].
    + unfold freq. rewrite !Z.sub_diag, !Z.mod_0_l by (destruct HT as (?&?&_); lia). unfold wave. cbn [Z.to_nat]. rewrite !Nat.mul_0_r. cbn [cpow]. apply times_ones.
    + apply times_zero.
  - apply Sum_zero. intros j Hj. apply in_seq in Hj. cbv zeta. rewrite H1, !Z by lia. replace (i =? r) with false by lia. cbn [andb]. apply times_zero.
Qed.
Print Assumptions C83_point_window.

(** With a cut-off the result is smaller; its spectrum at the kept wave vectors is that of the
    result without cut-off. *)
Theorem C83_cropped (K : Fld) (W : nat -> Cx K) junk (frame window : mat (Cx K)) k kimax kjmax :
  transforms W (mh frame) (mw frame) -> mh window = mh frame -> mw window = mw frame -> kvec_in (mh frame) (mw frame) k ->
  fits (mh frame) kimax -> fits (mw frame) kjmax -> transforms W (cropped (mh frame) kimax) (cropped (mw frame) kjmax) ->
  exists out full, dls W junk frame window k kimax kjmax = Ok out /\ dls W junk frame window k None None = Ok full /\
    mh out = cropped (mh frame) kimax /\ mw out = cropped (mw frame) kjmax /\
    forall ki kj, kept kimax ki -> kept kjmax kj ->
      dft2_at W out (freq (mh out) ki) (freq (mw out) kj) = dft2_at W full (freq (mh full) ki) (freq (mw full) kj).
Proof.
  intros HT Eh Ew Hk F1 F2 HT'. pose proof HT as (Hh & Hw & Rh & Rw). rewrite <- Eh, <- Ew in Hk. destruct (@kernel_ok K W window k) as (kernel & E & K1 & K2 & VK); [lia|lia|exact Hk|].
  destruct (@convolve_ok K W junk frame kernel None None HT) as (s & o & Ec & S1 & S2 & O1 & O2 & VS & VO & EE); [congruence|congruence|exact Logic.I|exact Logic.I|].
  destruct (@convolve_ok K W junk frame kernel kimax kjmax HT) as (s' & o' & Ec' & S1' & S2' & O1' & O2' & VS' & VO' & EE'); [congruence|congruence|assumption|assumption|].
  unfold dls. unfold bind in E |- *. destruct (_build_kf W (mh window) (mw window) k) as [kf|]; [|discriminate]. rewrite E, EE, EE'.
  eexists _, _. split; [reflexivity|]. split; [reflexivity|]. cbn [mh mw]. split; [exact O1'|]. split; [exact O2'|]. intros ki kj Hi Hj.
  cbn [fft2_crop] in Ec. injection Ec as <-. destruct HT' as (Hh' & Hw' & Rh' & Rw'). rewrite <- O1' in Hh', Rh'. rewrite <- O2' in Hw', Rw'.
  assert (B : forall n z, 1 <= n -> freq n z < n) by (intros n z Hn; unfold freq; pose proof (Z.mod_pos_bound z (Z.of_nat n)); lia).
  rewrite (@inverse2 K W o') by (auto; apply B; assumption). rewrite (@inverse2 K W s) by (rewrite ?S1, ?S2; auto; apply B; assumption).
  change (at_freq o' ki kj = at_freq s ki kj). rewrite VO' by assumption. unfold at_freq. rewrite S1, S2, S1', S2'. rewrite VS, VS' by (apply B; assumption). reflexivity.
Qed.
Print Assumptions C83_cropped.

(** Several wave vectors: one result for each of them. *)
Theorem C83_many (K : Fld) (W : nat -> Cx K) junk (frame window : mat (Cx K)) windows kvecs kimax kjmax :
  1 <= mh window -> 1 <= mw window -> kvecs <> [] -> Forall (kvec_in (mh window) (mw window)) kvecs ->
  dls_many W junk frame [window] kvecs kimax kjmax = map_res_v (fun k => dls W junk frame window k kimax kjmax) kvecs /\
  (length windows = length kvecs -> Forall (fun x => mh x = mh window /\ mw x = mw window) windows ->
   dls_many W junk frame windows kvecs kimax kjmax = map_res_v (fun p => dls W junk frame (fst p) (snd p) kimax kjmax) (combine windows kvecs)).
Proof.
  intros Hh Hw Hn HK. split; [apply many_one; assumption|]. intros HL HW. apply (@many_windows K W junk frame window); assumption.
Qed.
Print Assumptions C83_many.

(** Without wave vectors, without windows. *)
Theorem C83_none (K : Fld) (W : nat -> Cx K) junk frame windows kvecs kimax kjmax :
  dls_many W junk frame windows [] kimax kjmax = Raise ValueError /\ (kvecs <> [] -> dls_many W junk frame [] kvecs kimax kjmax = Raise IndexError).
Proof. split; [reflexivity|]. destruct kvecs; [congruence|reflexivity]. Qed.
Print Assumptions C83_none.

(** A video: frame by frame, with the exceptions that dls would raise; nothing is yielded if the
    wave vector is refused. *)
Theorem C83_video (K : Fld) (W : nat -> Cx K) junk (video : gen (list (mat (Cx K)))) window k kimax kjmax :
  (1 <= mh window -> 1 <= mw window -> kvec_in (mh window) (mw window) k ->
   dls_video W junk video window k kimax kjmax =
   gen_each (map_res_v (fun frame => dls W junk frame window k kimax kjmax)) (yields video) (ending video)) /\
  (~ kvec_in (mh window) (mw window) k -> dls_video W junk video window k kimax kjmax = Gen [] (Some IndexError)).
Proof.
  split.
  - intros Hh Hw Hk. destruct (@kernel_ok K W window k Hh Hw Hk) as (kernel & E & _). unfold dls_video. rewrite E. apply gen_each_ext. intros l. apply map_res_v_ext. intros x.
    unfold dls. unfold bind in E |- *. destruct (_build_kf W (mh window) (mw window) k) as [kf|]; [|discriminate]. rewrite E. reflexivity.
  - intros H. unfold dls_video. rewrite build_kf_bad by exact H. reflexivity.
Qed.
Print Assumptions C83_video.
(** Refused arguments: a wave vector outside of the window, frames of another shape. *)
Theorem C83_refused (K : Fld) (W : nat -> Cx K) junk (frame window : mat (Cx K)) k kimax kjmax :
  (~ kvec_in (mh window) (mw window) k -> dls W junk frame window k kimax kjmax = Raise IndexError) /\
  (1 <= mh window -> 1 <= mw window -> kvec_in (mh window) (mw window) k ->
   mh frame = 0 \/ mw frame = 0 \/ (mh frame <> mh window /\ mh frame <> 1 /\ mh window <> 1) \/ (mw frame <> mw window /\ mw frame <> 1 /\ mw window <> 1) ->
   dls W junk frame window k kimax kjmax = Raise ValueError).
Proof.
  split.
  - intros H. unfold dls. rewrite build_kf_bad by exact H. reflexivity.
  - intros Hh Hw Hk HF. destruct (@kernel_ok K W window k Hh Hw Hk) as (kernel & E & K1 & K2 & _).
    unfold dls. unfold bind in E |- *. destruct (_build_kf W (mh window) (mw window) k) as [kf|]; [|discriminate]. rewrite E.
    unfold _convolve_fft, _fft2. destruct ((mh frame =? 0) || (mw frame =? 0)) eqn:Z; [reflexivity|]. cbn [bind]. unfold mat_mul, bdim. cbn [mh mw]. rewrite K1, K2.
    destruct (Nat.eqb_spec (mh frame) (mh window)), (Nat.eqb_spec (mh frame) 1), (Nat.eqb_spec (mh window) 1),
      (Nat.eqb_spec (mw frame) (mw window)), (Nat.eqb_spec (mw frame) 1), (Nat.eqb_spec (mw window) 1); cbn [bind]; try reflexivity; exfalso; lia.
Qed.
Print Assumptions C83_refused.
(** k_point_kernel of map.py is the function that dls convolves with. *)
Theorem C83_k_point_kernel (K : Fld) (W : nat -> Cx K) (window : mat (Cx K)) ki kj :
  1 <= mh window -> 1 <= mw window -> kvec_in (mh window) (mw window) (ki, kj) ->
  exists r, k_point_kernel W window ki kj = Ok r /\ mh r = mh window /\ mw r = mw window /\
    (forall i j, i < mh window -> j < mw window -> mat_at r i j = cmul (wave W (mh window) (mw window) ki kj i j) (mat_at window i j)) /\
    exists kernel, (let* kf := _build_kf W (mh window) (mw window) (ki, kj) in _build_kernel W window kf) = Ok kernel /\
      (let* s := _fft2 W r in Ok (mh s, mw s, mat_at s)) = Ok (mh kernel, mw kernel, dft2_at W r) /\
      forall k l, k < mh window -> l < mw window -> mat_at kernel k l = dft2_at W r k l.
Proof.
  intros Hh Hw Hk. destruct (@build_kf_ok K W _ _ _ Hh Hw Hk) as (kf & E & E1 & E2 & V). destruct (@kernel_ok K W window _ Hh Hw Hk) as (kernel & Ek & K1 & K2 & VK).
  destruct (@mat_mul_ok K W kf window E1 E2) as (r & Er & R1 & R2 & VR). exists r. rewrite E1 in R1, VR. rewrite E2 in R2, VR.
  split; [unfold k_point_kernel; unfold _build_kf in E; cbn [fst snd] in E; unfold bind in E |- *; destruct (mset _ _ _ _); [|discriminate]; rewrite E; exact Er|].
  split; [exact R1|]. split; [exact R2|]. split; [intros i j Hi Hj; rewrite VR, V by assumption; reflexivity|].
  exists kernel. split; [exact Ek|]. split.
  - unfold _fft2. rewrite R1, R2, K1, K2. replace ((mh window =? 0) || (mw window =? 0)) with false by lia. reflexivity.
  - intros k l Hk' Hl. rewrite VK. apply dft2_ext; [symmetry; exact R1|symmetry; exact R2|]. cbn [mh mw mat_at]. intros i j Hi Hj. rewrite VR, V by assumption. unfold filter_at. apply cmul_comm'.
Qed.
Print Assumptions C83_k_point_kernel.

(** "Filters only the defined frequency components" read as: with a constant window the component
    of the transform at kvec is what is left.  False: it is the opposite one. *)
Definition one_row (l : list (Cx QcF)) : mat (Cx QcF) := table (cz 0 0) [l].
Theorem C83_component_refuted :
  ~ forall (K : Fld) (W : nat -> Cx K) junk (frame window out : mat (Cx K)) k r c,
      transforms W (mh frame) (mw frame) -> mh window = mh frame -> mw window = mw frame -> kvec_in (mh frame) (mw frame) k ->
      (forall i j, mat_at window i j = c1 K) -> dls W junk frame window k None None = Ok out -> r < mh frame -> c < mw frame ->
      mat_at out r c = cmul (dft2_at W frame (freq (mh frame) (fst k)) (freq (mw frame) (snd k))) (conj (wave W (mh frame) (mw frame) (fst k) (snd k) r c)).
Proof.
  intros H.
  pose (fr := one_row [cz 1 0; cz 0 1; cz (-1) 0; cz 0 (-1)]).
  pose (win := Mat 1 4 (fun _ _ => c1 QcF)).
  assert (HT : transforms Wq (mh fr) (mw fr)).
  { split; [cbn; lia|]. split; [cbn; lia|]. split; [|exact Wq4]. split; [apply (f_equal2 pair); apply Qcanon.Qc_is_canon; reflexivity|]. split; [apply (f_equal2 pair); apply Qcanon.Qc_is_canon; reflexivity|].
    intros m Hm. cbn in Hm. lia. }
  destruct (@C83_constant_window QcF Wq (fun _ _ => c0 QcF) fr win (0, 1)%Z HT eq_refl eq_refl) as (out & E & V); [split; cbn; lia|reflexivity|].
  specialize (H QcF Wq (fun _ _ => c0 QcF) fr win out (0, 1)%Z 0 0 HT eq_refl eq_refl). specialize (H ltac:(split; cbn; lia) ltac:(reflexivity) E ltac:(cbn; lia) ltac:(cbn; lia)).
  destruct (V 0 0) as [V0 _]; [cbn; lia|cbn; lia|]. rewrite V0 in H. apply (f_equal showc) in H. vm_compute in H. discriminate H.
Qed.
Print Assumptions C83_component_refuted.

Definition fr24c : mat (Cx QcF) := table (cz 0 0) [[cz 1 0; cz 2 0; cz 3 0; cz 4 0]; [cz 0 0; cz 1 0; cz 0 0; cz 2 0]].
Definition win24 : mat (Cx QcF) := table (cz 0 0) [[cz 2 0; cz 1 0; cz 0 0; cz 1 0]; [cz 1 0; cz 0 0; cz 0 0; cz 0 0]].
Example C83_example : transforms Wq 2 4 /\ kvec_in 2 4 (1, 1)%Z /\
  showm (dls Wq (fun _ _ => cz 9 9) fr24c win24 (1, 1)%Z None None) =
    Ok [[(2, 1, (-2, 1)); (3, 1, (2, 1)); (6, 1, (2, 1)); (6, 1, (-2, 1))]; [(-1, 1, (-1, 1)); (0, 1, (0, 1)); (-3, 1, (1, 1)); (0, 1, (0, 1))]]%Z /\
  showm (dls Wq (fun _ _ => cz 9 9) fr24c win24 (1, -5)%Z None None) = Raise IndexError /\
  showm (dls Wq (fun _ _ => cz 9 9) fr24c (table (cz 0 0) [[cz 2 0; cz 1 0; cz 0 0]; [cz 1 0; cz 0 0; cz 0 0]]) (1, 1)%Z None None) = Raise ValueError /\
  match dls_many Wq (fun _ _ => cz 9 9) fr24c [win24] [(1, 1); (0, -1)]%Z None None with Ok l => map (fun x => showm (Ok x)) l | Raise _ => [] end =
    [Ok [[(2, 1, (-2, 1)); (3, 1, (2, 1)); (6, 1, (2, 1)); (6, 1, (-2, 1))]; [(-1, 1, (-1, 1)); (0, 1, (0, 1)); (-3, 1, (1, 1)); (0, 1, (0, 1))]];
     Ok [[(2, 1, (2, 1)); (5, 1, (-2, 1)); (6, 1, (-2, 1)); (10, 1, (2, 1))]; [(1, 1, (1, 1)); (4, 1, (0, 1)); (3, 1, (-1, 1)); (8, 1, (0, 1))]]]%Z.
Proof.
  split; [split; [lia|split; [lia|split; [exact Wq2|exact Wq4]]]|]. split; [split; cbn; lia|]. repeat split; vm_compute; reflexivity.
Qed.
