(** Proofs about slices and slice assignment, cropping, and the conversions between half-plane
    and full-plane data. *)
From Coq Require Import ZifyBool ZifyNat.
From Verif Require Import Base KernelProofs MapModel.
Set Implicit Arguments.
Ltac Zify.zify_post_hook ::= Z.div_mod_to_equations.

(** The position of signed frequency [k] in an axis of length [n]. *)
Definition freq (n : nat) (k : Z) : nat := Z.to_nat (k mod Z.of_nat n).
(** The entry of an array at signed frequencies [ki], [kj]. *)
Definition at_freq {A} (x : mat A) (ki kj : Z) : A := mat_at x (freq (mh x) ki) (freq (mw x) kj).

Lemma freq_pos n k : (0 <= k < Z.of_nat n)%Z -> freq n k = Z.to_nat k.
Proof. intros H. unfold freq. rewrite Z.mod_small by lia. reflexivity. Qed.
Lemma freq_neg n k : (- Z.of_nat n <= k < 0)%Z -> freq n k = Z.to_nat (k + Z.of_nat n).
Proof. intros H. unfold freq. f_equal. symmetry. apply (Z.mod_unique k (Z.of_nat n) (-1) (k + Z.of_nat n)); lia. Qed.

Ltac clips := cbv beta iota zeta delta [clip]; repeat match goal with |- context [if (?b <? 0)%Z then _ else _] => let E := fresh in destruct (b <? 0)%Z eqn:E end; lia.
(** Slices with step 1 select consecutive positions. *)
Lemma slice_up n a b : slice_indices n a b 1 =
  let s := match a with Some s => clip (Z.of_nat n) false s | None => 0%Z end in
  let t := match b with Some s => clip (Z.of_nat n) false s | None => Z.of_nat n end in
  seq (Z.to_nat s) (Z.to_nat (t - s)).
Proof.
  unfold slice_indices. change (1 <? 0)%Z with false. cbv iota zeta. set (s := match a with Some s => _ | None => _ end). set (t := match b with Some s => _ | None => _ end).
  assert (Hs : (0 <= s)%Z) by (subst s; destruct a; clips). rewrite Z.div_1_r. clearbody s t.
  replace (Z.to_nat (if (s <? t)%Z then (t - s - 1 + 1)%Z else 0%Z)) with (Z.to_nat (t - s)) by (destruct (s <? t)%Z eqn:E; lia).
  apply (list_nth_ext _ _ 0).
  - rewrite map_length, !seq_length. reflexivity.
  - intros k Hk. rewrite map_length, seq_length in Hk. rewrite nth_map_seq, seq_nth by lia. lia.
Qed.
Lemma sto_spec n b : (0 <= b <= Z.of_nat n)%Z -> indices n (sto b) = Ok (seq 0 (Z.to_nat b)).
Proof. intros H. unfold sto, indices. rewrite slice_up. cbv zeta. f_equal. f_equal. clips. Qed.
Lemma sto_clip n b : (Z.of_nat n <= b)%Z -> indices n (sto b) = Ok (seq 0 n).
Proof. intros H. unfold sto, indices. rewrite slice_up. cbv zeta. f_equal. f_equal. clips. Qed.
Lemma sall_spec n : indices n sall = Ok (seq 0 n).
Proof. unfold sall, indices. rewrite slice_up. cbv zeta. f_equal. f_equal. lia. Qed.
Lemma sl_spec n b : (0 <= b <= Z.of_nat n)%Z -> indices n (sl 0 b) = Ok (seq 0 (Z.to_nat b)).
Proof. intros H. unfold sl, indices. rewrite slice_up. cbv zeta. f_equal. f_equal; clips. Qed.
Lemma sfrom_pos n a : (0 <= a <= Z.of_nat n)%Z -> indices n (sfrom a) = Ok (seq (Z.to_nat a) (n - Z.to_nat a)).
Proof. intros H. unfold sfrom, indices. rewrite slice_up. cbv zeta. f_equal. f_equal; clips. Qed.
Lemma sfrom_neg n a : (- Z.of_nat n <= a < 0)%Z -> indices n (sfrom a) = Ok (seq (n - Z.to_nat (- a)) (Z.to_nat (- a))).
Proof. intros H. unfold sfrom, indices. rewrite slice_up. cbv zeta. f_equal. f_equal; clips. Qed.
(** a[-1:-b:-1] selects positions n-1 down to n-b+1. *)
Lemma srev_spec n b : (1 <= b <= Z.of_nat n)%Z -> indices n (srev (-1) (- b)) = Ok (map (fun k => n - 1 - k) (seq 0 (Z.to_nat (b - 1)))).
Proof.
  intros H. unfold srev, indices. f_equal. unfold slice_indices. change (-1 <? 0)%Z with true. cbv iota zeta.
  replace (clip (Z.of_nat n) true (-1)) with (Z.of_nat n - 1)%Z by clips.
  replace (clip (Z.of_nat n) true (- b)) with (Z.of_nat n - b)%Z by clips.
  change (- -1)%Z with 1%Z. rewrite Z.div_1_r. match goal with |- context [seq 0 ?z] => replace z with (Z.to_nat (b - 1)) by (destruct (_ <? _)%Z eqn:E; lia) end.
  apply map_ext_in. intros k Hk. apply in_seq in Hk. lia.
Qed.
Lemma srev0_spec n : 1 <= n -> indices n (srev (-1) 0) = Ok (map (fun k => n - 1 - k) (seq 0 (n - 1))).
Proof.
  intros H. unfold srev, indices. f_equal. unfold slice_indices. change (-1 <? 0)%Z with true. cbv iota zeta.
  replace (clip (Z.of_nat n) true (-1)) with (Z.of_nat n - 1)%Z by clips.
  replace (clip (Z.of_nat n) true 0) with 0%Z by clips.
  change (- -1)%Z with 1%Z. rewrite Z.div_1_r. match goal with |- context [seq 0 ?z] => replace z with (n - 1) by (destruct (_ <? _)%Z eqn:E; lia) end.
  apply map_ext_in. intros k Hk. apply in_seq in Hk. lia.
Qed.
Lemma int0_spec n : 1 <= n -> indices n (Int 0) = Ok [0].
Proof. intros H. unfold indices, py_index. change (0 <? 0)%Z with false. cbv iota zeta. change (0 <=? 0)%Z with true. replace (0 <? Z.of_nat n)%Z with true by lia. reflexivity. Qed.

Lemma position_seq i a n : position i (seq a n) = if (a <=? i) && (i <? a + n) then Some (i - a) else None.
Proof.
  revert a. induction n as [|n IH]; intros a; cbn [seq position].
  - replace ((a <=? i) && (i <? a + 0)) with false by lia. reflexivity.
  - rewrite IH. destruct (a =? i) eqn:E.
    + replace ((a <=? i) && (i <? a + S n)) with true by lia. f_equal. lia.
    + destruct ((S a <=? i) && (i <? S a + n)) eqn:F.
      * replace ((a <=? i) && (i <? a + S n)) with true by lia. f_equal. lia.
      * replace ((a <=? i) && (i <? a + S n)) with false by lia. reflexivity.
Qed.

Section M.
  Variable A : Type.
  Implicit Types x y out : mat A.

  Lemma mget_ok x i j ri ci : indices (mh x) i = Ok ri -> indices (mw x) j = Ok ci ->
    mget x i j = Ok (Mat (length ri) (length ci) (fun a b => mat_at x (nth a ri 0) (nth b ci 0))).
  Proof. intros H1 H2. unfold mget. rewrite H1, H2. reflexivity. Qed.
  Lemma mset_ok x i j y a n b m : indices (mh x) i = Ok (seq a n) -> indices (mw x) j = Ok (seq b m) -> mh y = n -> mw y = m ->
    exists z, mset x i j y = Ok z /\ mh z = mh x /\ mw z = mw x /\
      forall r c, mat_at z r c = if ((a <=? r) && (r <? a + n)) && ((b <=? c) && (c <? b + m)) then mat_at y (r - a) (c - b) else mat_at x r c.
  Proof.
    intros H1 H2 E1 E2. unfold mset. rewrite H1, H2. cbn [bind]. rewrite !seq_length, E1, E2, !Nat.eqb_refl. cbn [orb andb].
    eexists. split; [reflexivity|]. split; [reflexivity|]. split; [reflexivity|]. intros r c. cbn [mat_at]. rewrite !position_seq.
    destruct ((a <=? r) && (r <? a + n)) eqn:F1; [|reflexivity]. destruct ((b <=? c) && (c <? b + m)) eqn:F2; [|reflexivity]. cbn [andb].
    assert (S : forall u v w, u <= v < u + w -> spread w (v - u) = v - u). { intros u v w H. unfold spread. destruct (w =? 1) eqn:E; [lia|reflexivity]. }
    rewrite !S by lia. reflexivity.
  Qed.
  Lemma mset_bad x i j y ri ci : indices (mh x) i = Ok ri -> indices (mw x) j = Ok ci ->
    (mh y <> length ri /\ mh y <> 1) \/ (mw y <> length ci /\ mw y <> 1) -> mset x i j y = Raise ValueError.
  Proof.
    intros H1 H2 H. unfold mset. rewrite H1, H2. cbn [bind].
    replace (((mh y =? length ri) || (mh y =? 1)) && ((mw y =? length ci) || (mw y =? 1))) with false by lia. reflexivity.
  Qed.
End M.

(* ------------------------------------------------------------------ *)
(** * Cropping *)

(** The cut-off [kmax] can be applied to an axis of length [n] stored in signed order. *)
Definition fits (n : nat) (kmax : option Z) : Prop :=
  match kmax with None => True | Some k => (1 <= k <= Z.of_nat n / 2)%Z \/ (k = 0%Z /\ n = 1) end.
(** The cut-off can be applied to an axis of length [n] that holds frequencies 0, 1, ... only. *)
Definition fits_half (n : nat) (kmax : option Z) : Prop :=
  match kmax with None => True | Some k => (-1 <= k <= Z.of_nat n - 1)%Z end.
(** The length of the cropped axis *)
Definition cropped (n : nat) (kmax : option Z) : nat := match kmax with None => n | Some k => Z.to_nat (2 * k + 1) end.
Definition cropped_half (n : nat) (kmax : option Z) : nat := match kmax with None => n | Some k => Z.to_nat (k + 1) end.
(** Frequency [k] is kept *)
Definition kept (kmax : option Z) (k : Z) : Prop := match kmax with None => True | Some m => (- m <= k <= m)%Z end.

Lemma fits_dec n kmax : {fits n kmax} + {~ fits n kmax}.
Proof.
  destruct kmax as [k|]; cbn [fits]; [|left; exact Logic.I].
  destruct ((1 <=? k) && (k <=? Z.of_nat n / 2))%Z eqn:E; [left; left; lia|].
  destruct ((k =? 0)%Z && (n =? 1)) eqn:F; [left; right; lia|right; lia].
Qed.
Lemma fits_half_dec n kmax : {fits_half n kmax} + {~ fits_half n kmax}.
Proof.
  destruct kmax as [k|]; cbn [fits_half]; [|left; exact Logic.I].
  destruct ((-1 <=? k) && (k <=? Z.of_nat n - 1))%Z eqn:E; [left; lia|right; lia].
Qed.

(** An axis in signed order is copied in two parts: positions 0..k and the last [t]. *)
Lemma axis_ok n kmax : 1 <= n -> fits n kmax -> exists k t,
  _determine_kimax (Z.of_nat n) kmax = Some (Z.of_nat k, Z.of_nat (cropped n kmax)) /\
  (let m := cropped n kmax in
   k + 1 <= n /\ k + 1 <= m /\ 1 <= t /\ t <= n /\ t <= m /\ m <= k + 1 + t /\
   indices n (sto (Z.of_nat k + 1)) = Ok (seq 0 (k + 1)) /\ indices m (sto (Z.of_nat k + 1)) = Ok (seq 0 (k + 1)) /\
   indices n (sfrom (- (Z.of_nat k + 1) + 1)) = Ok (seq (n - t) t) /\ indices m (sfrom (- (Z.of_nat k + 1) + 1)) = Ok (seq (m - t) t) /\
   forall f, kept kmax f -> freq n f = if m - t <=? freq m f then n - t + (freq m f - (m - t)) else freq m f).
Proof.
  intros H0 H. destruct kmax as [z|]; cbn [fits cropped kept] in *.
  - destruct H as [H|[-> ->]].
    + exists (Z.to_nat z), (Z.to_nat z). split.
      { unfold _determine_kimax. cbv zeta. replace (z * 2 + 1 >? Z.of_nat n / 2 * 2 + 1)%Z with false by lia. f_equal. f_equal; lia. }
      cbv zeta. do 6 (split; [lia|]).
      split; [rewrite sto_spec by lia; f_equal; f_equal; lia|]. split; [rewrite sto_spec by lia; f_equal; f_equal; lia|].
      split; [rewrite sfrom_neg by lia; f_equal; f_equal; lia|]. split; [rewrite sfrom_neg by lia; f_equal; f_equal; lia|].
      intros f Hf. destruct (Z.leb_spec 0 f).
      * rewrite !freq_pos by lia. destruct (_ <=? _) eqn:E; lia.
      * rewrite !freq_neg by lia. destruct (_ <=? _) eqn:E; lia.
    + exists 0, 1. split; [reflexivity|]. cbv zeta. change (Z.to_nat (2 * 0 + 1)) with 1. do 6 (split; [lia|]). do 4 (split; [reflexivity|]).
      intros f Hf. replace f with 0%Z by lia. reflexivity.
  - exists (n / 2), (if n =? 1 then 1 else n / 2). split.
    { unfold _determine_kimax. f_equal. f_equal. lia. }
    cbv zeta. destruct (n =? 1) eqn:E.
    + replace n with 1 by lia. change (1 / 2) with 0. do 6 (split; [lia|]). do 4 (split; [reflexivity|]). intros f Hf. destruct (_ <=? _) eqn:F; lia.
    + do 6 (split; [lia|]).
      split; [rewrite sto_spec by lia; f_equal; f_equal; lia|]. split; [rewrite sto_spec by lia; f_equal; f_equal; lia|].
      split; [rewrite sfrom_neg by lia; f_equal; f_equal; lia|]. split; [rewrite sfrom_neg by lia; f_equal; f_equal; lia|].
      intros f Hf. destruct (_ <=? _) eqn:F; lia.
Qed.
Lemma half_ok n kmax : fits_half n kmax -> exists j,
  _determine_kjmax (Z.of_nat n) kmax = Some (j, Z.of_nat (cropped_half n kmax)) /\ (j + 1)%Z = Z.of_nat (cropped_half n kmax) /\ cropped_half n kmax <= n.
Proof.
  intros H. destruct kmax as [z|]; cbn [fits_half cropped_half] in *.
  - exists z. unfold _determine_kjmax. replace (z >? Z.of_nat n - 1)%Z with false by lia. split; [f_equal; f_equal; lia|lia].
  - exists (Z.of_nat n - 1)%Z. split; [reflexivity|lia].
Qed.

Lemma freq_lt n k : 1 <= n -> freq n k < n.
Proof. intros H. unfold freq. pose proof (Z.mod_pos_bound k (Z.of_nat n)). lia. Qed.

Section Crop.
  Variable A : Type.
  Variable junk : nat -> nat -> A.
  Implicit Types x out : mat A.
  Local Notation rfft2_crop := (rfft2_crop junk).
  Local Notation fft2_crop := (fft2_crop junk).

  Lemma np_empty_ok h w : np_empty junk (Z.of_nat h) (Z.of_nat w) = Ok (Mat h w junk).
  Proof. unfold np_empty. replace ((Z.of_nat h <? 0) || (Z.of_nat w <? 0))%Z%bool with false by lia. rewrite !Nat2Z.id. reflexivity. Qed.

  Lemma rfft2_crop_ok x kimax kjmax : 1 <= mh x -> fits (mh x) kimax -> fits_half (mw x) kjmax ->
    exists out, rfft2_crop x kimax kjmax = Ok out /\ mh out = cropped (mh x) kimax /\ mw out = cropped_half (mw x) kjmax /\
      forall ki j, kept kimax ki -> j < mw out -> mat_at out (freq (mh out) ki) j = mat_at x (freq (mh x) ki) j.
  Proof.
    intros H0 H1 H2. assert (C : (kimax = None /\ kjmax = None) \/ rfft2_crop x kimax kjmax =
        (let* (kisize, kjsize, istop, jstop) := _determine_cutoff_indices (mh x) (mw x) kimax kjmax Rfft2 in
        let* out := np_empty junk kisize kjsize in
        let* y := mget x (sto istop) (sto jstop) in
        let* out := mset out (sto istop) sall y in
        let* y := mget x (sfrom (- istop + 1)) (sto jstop) in
        mset out (sfrom (- istop + 1)) sall y)) by (destruct kimax, kjmax; auto).
    destruct C as [[-> ->]| ->]; [exists x; auto|].
    destruct (@axis_ok _ _ H0 H1) as (k & t & D & K1 & K2 & K3 & K4 & K5 & K6 & I1 & I2 & I3 & I4 & F). destruct (@half_ok _ _ H2) as (j & E & J1 & J2).
    unfold _determine_cutoff_indices. rewrite D, E. cbn [bind]. rewrite np_empty_ok. cbn [bind].
    set (m := cropped (mh x) kimax) in *. set (w := cropped_half (mw x) kjmax) in *. rewrite J1.
    assert (S : indices (mw x) (sto (Z.of_nat w)) = Ok (seq 0 w)) by (rewrite sto_spec by lia; rewrite Nat2Z.id; reflexivity).
    rewrite (mget_ok x _ _ I1 S). cbn [bind].
    match goal with |- context [mset (Mat m w junk) ?i ?c ?y] => destruct (@mset_ok A (Mat m w junk) i c y 0 (k + 1) 0 w) as (o1 & -> & R1 & C1 & V1) end;
      [exact I2|apply sall_spec|cbn [mh]; rewrite seq_length; reflexivity|cbn [mw]; rewrite seq_length; reflexivity|].
    cbn [bind]. cbn [mh mw mat_at] in R1, C1, V1. rewrite (mget_ok x _ _ I3 S). cbn [bind].
    match goal with |- context [mset o1 ?i ?c ?y] => destruct (@mset_ok A o1 i c y (m - t) t 0 w) as (o2 & -> & R2 & C2 & V2) end;
      [rewrite R1; exact I4|rewrite C1; apply sall_spec|cbn [mh]; rewrite seq_length; reflexivity|cbn [mw]; rewrite seq_length; reflexivity|].
    cbn [mh mw mat_at] in R2, C2, V2. exists o2. split; [reflexivity|]. rewrite R2, C2, R1, C1. split; [reflexivity|]. split; [reflexivity|].
    intros ki c Hki Hc. rewrite V2, V1. rewrite (F ki Hki). assert (L : freq m ki < m) by (apply freq_lt; lia).
    destruct (m - t <=? freq m ki) eqn:E1.
    - replace ((true && (freq m ki <? m - t + t)) && ((0 <=? c) && (c <? 0 + w))) with true by lia. rewrite !seq_nth by lia. f_equal. lia.
    - cbn [andb]. replace (((0 <=? freq m ki) && (freq m ki <? 0 + (k + 1))) && ((0 <=? c) && (c <? 0 + w))) with true by lia. rewrite !seq_nth by lia. f_equal; lia.
  Qed.

  Lemma fft2_crop_ok x kimax kjmax : 1 <= mh x -> 1 <= mw x -> fits (mh x) kimax -> fits (mw x) kjmax ->
    exists out, fft2_crop x kimax kjmax = Ok out /\ mh out = cropped (mh x) kimax /\ mw out = cropped (mw x) kjmax /\
      forall ki kj, kept kimax ki -> kept kjmax kj -> at_freq out ki kj = at_freq x ki kj.
  Proof.
    intros H0 G0 H1 H2. assert (C : (kimax = None /\ kjmax = None) \/ fft2_crop x kimax kjmax =
        (let* (kisize, kjsize, istop, jstop) := _determine_cutoff_indices (mh x) (mw x) kimax kjmax Fft2 in
        let* out := np_empty junk kisize kjsize in
        let* y := mget x (sto istop) (sto jstop) in
        let* out := mset out (sto istop) (sto jstop) y in
        let* y := mget x (sfrom (- istop + 1)) (sto jstop) in
        let* out := mset out (sfrom (- istop + 1)) (sto jstop) y in
        let* y := mget x (sto istop) (sfrom (- jstop + 1)) in
        let* out := mset out (sto istop) (sfrom (- jstop + 1)) y in
        let* y := mget x (sfrom (- istop + 1)) (sfrom (- jstop + 1)) in
        mset out (sfrom (- istop + 1)) (sfrom (- jstop + 1)) y)) by (destruct kimax, kjmax; auto).
    destruct C as [[-> ->]| ->]; [exists x; auto|].
    destruct (@axis_ok _ _ H0 H1) as (k & t & D & K1 & K2 & K3 & K4 & K5 & K6 & I1 & I2 & I3 & I4 & F).
    destruct (@axis_ok _ _ G0 H2) as (l & u & E & L1 & L2 & L3 & L4 & L5 & L6 & J1 & J2 & J3 & J4 & G).
    unfold _determine_cutoff_indices. rewrite D, E. cbn [bind]. rewrite np_empty_ok. cbn [bind].
    set (m := cropped (mh x) kimax) in *. set (w := cropped (mw x) kjmax) in *.
    rewrite (mget_ok x _ _ I1 J1). cbn [bind].
    match goal with |- context [mset (Mat m w junk) ?i ?c ?y] => destruct (@mset_ok A (Mat m w junk) i c y 0 (k + 1) 0 (l + 1)) as (o1 & -> & R1 & C1 & V1) end;
      [exact I2|exact J2|cbn [mh]; rewrite seq_length; reflexivity|cbn [mw]; rewrite seq_length; reflexivity|].
    cbn [bind]. cbn [mh mw mat_at] in R1, C1, V1. rewrite (mget_ok x _ _ I3 J1). cbn [bind].
    match goal with |- context [mset o1 ?i ?c ?y] => destruct (@mset_ok A o1 i c y (m - t) t 0 (l + 1)) as (o2 & -> & R2 & C2 & V2) end;
      [rewrite R1; exact I4|rewrite C1; exact J2|cbn [mh]; rewrite seq_length; reflexivity|cbn [mw]; rewrite seq_length; reflexivity|].
    cbn [bind]. cbn [mh mw mat_at] in R2, C2, V2. rewrite (mget_ok x _ _ I1 J3). cbn [bind].
    match goal with |- context [mset o2 ?i ?c ?y] => destruct (@mset_ok A o2 i c y 0 (k + 1) (w - u) u) as (o3 & -> & R3 & C3 & V3) end;
      [rewrite R2, R1; exact I2|rewrite C2, C1; exact J4|cbn [mh]; rewrite seq_length; reflexivity|cbn [mw]; rewrite seq_length; reflexivity|].
    cbn [bind]. cbn [mh mw mat_at] in R3, C3, V3. rewrite (mget_ok x _ _ I3 J3). cbn [bind].
    match goal with |- context [mset o3 ?i ?c ?y] => destruct (@mset_ok A o3 i c y (m - t) t (w - u) u) as (o4 & -> & R4 & C4 & V4) end;
      [rewrite R3, R2, R1; exact I4|rewrite C3, C2, C1; exact J4|cbn [mh]; rewrite seq_length; reflexivity|cbn [mw]; rewrite seq_length; reflexivity|].
    cbn [mh mw mat_at] in R4, C4, V4. exists o4. split; [reflexivity|]. split; [congruence|]. split; [congruence|].
    intros ki kj Hki Hkj. unfold at_freq. rewrite R4, R3, R2, R1, C4, C3, C2, C1. rewrite V4, V3, V2, V1. rewrite (F ki Hki), (G kj Hkj).
    assert (A1 : freq m ki < m) by (apply freq_lt; lia). assert (A2 : freq w kj < w) by (apply freq_lt; lia).
    set (a := freq m ki) in *. set (b := freq w kj) in *. clearbody a b. clear V1 V2 V3 V4.
    replace (a <? m - t + t) with true by lia. replace (b <? w - u + u) with true by lia.
    destruct (m - t <=? a) eqn:E1; destruct (w - u <=? b) eqn:E2; cbn [andb].
    - rewrite !seq_nth by lia. reflexivity.
    - replace (0 <=? b) with true by lia. replace (b <? 0 + (l + 1)) with true by lia. rewrite !andb_false_r. cbn [andb].
      rewrite !seq_nth by lia. f_equal; lia.
    - replace (0 <=? a) with true by lia. replace (a <? 0 + (k + 1)) with true by lia. cbn [andb]. rewrite !seq_nth by lia. f_equal; lia.
    - replace (0 <=? a) with true by lia. replace (a <? 0 + (k + 1)) with true by lia. replace (0 <=? b) with true by lia. replace (b <? 0 + (l + 1)) with true by lia. cbn [andb].
      rewrite !seq_nth by lia. f_equal; lia.
  Qed.
End Crop.

Section CropBad.
  Variable A : Type.
  Variable junk : nat -> nat -> A.
  Implicit Types x out : mat A.
  Local Notation rfft2_crop := (rfft2_crop junk).
  Local Notation fft2_crop := (fft2_crop junk).

  (** A cut-off that does not fit is refused by [_determine_kimax], or it is negative, or it is 0. *)
  Lemma axis_bad n kmax : 1 <= n -> ~ fits n kmax -> _determine_kimax (Z.of_nat n) kmax = None \/
    (exists k m, _determine_kimax (Z.of_nat n) kmax = Some (k, m) /\ (m < 0)%Z) \/
    (_determine_kimax (Z.of_nat n) kmax = Some (0%Z, 1%Z) /\ 2 <= n).
  Proof.
    intros H0 H. destruct kmax as [k|]; cbn [fits] in H; [|tauto]. unfold _determine_kimax. cbv zeta.
    destruct (k * 2 + 1 >? Z.of_nat n / 2 * 2 + 1)%Z eqn:E; [auto|right]. destruct (Z.ltb_spec k 0).
    - left. exists k, (k * 2 + 1)%Z. split; [reflexivity|lia].
    - right. assert (k = 0)%Z as -> by lia. split; [reflexivity|]. lia.
  Qed.
  Lemma half_bad n kmax : ~ fits_half n kmax -> _determine_kjmax (Z.of_nat n) kmax = None \/ exists k m, _determine_kjmax (Z.of_nat n) kmax = Some (k, m) /\ (m < 0)%Z.
  Proof.
    intros H. destruct kmax as [k|]; cbn [fits_half] in H; [|tauto]. unfold _determine_kjmax.
    destruct (k >? Z.of_nat n - 1)%Z eqn:E; [auto|right]. exists k, (k + 1)%Z. split; [reflexivity|lia].
  Qed.
  Lemma np_empty_neg h w : (h < 0)%Z \/ (w < 0)%Z -> np_empty junk h w = Raise ValueError.
  Proof. intros H. unfold np_empty. replace ((h <? 0) || (w <? 0))%Z%bool with true by lia. reflexivity. Qed.

  Lemma rfft2_crop_bad x kimax kjmax : 1 <= mh x -> ~ (fits (mh x) kimax /\ fits_half (mw x) kjmax) -> rfft2_crop x kimax kjmax = Raise ValueError.
  Proof.
    intros H0 H. assert (C : rfft2_crop x kimax kjmax =
        (let* (kisize, kjsize, istop, jstop) := _determine_cutoff_indices (mh x) (mw x) kimax kjmax Rfft2 in
        let* out := np_empty junk kisize kjsize in
        let* y := mget x (sto istop) (sto jstop) in
        let* out := mset out (sto istop) sall y in
        let* y := mget x (sfrom (- istop + 1)) (sto jstop) in
        mset out (sfrom (- istop + 1)) sall y)) by (destruct kimax, kjmax; try reflexivity; cbn in H; tauto).
    rewrite C. unfold _determine_cutoff_indices. cbn [bind]. clear C.
    destruct (fits_half_dec (mw x) kjmax) as [F|F].
    - destruct (@half_ok _ _ F) as (j & E & J1 & J2). rewrite E. assert (N : ~ fits (mh x) kimax) by tauto.
      destruct (@axis_bad _ _ H0 N) as [->|[(k & m & -> & L)|[-> L]]]; [reflexivity|cbn [bind]; rewrite np_empty_neg by auto; reflexivity|].
      cbn [bind]. change 1%Z with (Z.of_nat 1) at 1. rewrite np_empty_ok. cbn [bind]. set (w := cropped_half (mw x) kjmax) in *. rewrite J1. change (0 + 1)%Z with 1%Z.
      assert (S : indices (mw x) (sto (Z.of_nat w)) = Ok (seq 0 w)) by (rewrite sto_spec by lia; rewrite Nat2Z.id; reflexivity).
      assert (S1 : indices (mh x) (sto 1) = Ok (seq 0 1)) by (rewrite sto_spec by lia; reflexivity). rewrite (mget_ok x _ _ S1 S). cbn [bind].
      match goal with |- context [mset (Mat 1 w junk) ?i ?c ?y] => destruct (@mset_ok A (Mat 1 w junk) i c y 0 1 0 w) as (o1 & -> & R1 & C1 & V1) end;
        [reflexivity|apply sall_spec|cbn [mh]; rewrite seq_length; reflexivity|cbn [mw]; rewrite seq_length; reflexivity|].
      cbn [bind]. change (- (1) + 1)%Z with 0%Z. assert (S2 : indices (mh x) (sfrom 0) = Ok (seq 0 (mh x))) by (rewrite sfrom_pos by lia; f_equal; f_equal; lia).
      rewrite (mget_ok x _ _ S2 S). cbn [bind]. apply (@mset_bad _ _ _ _ _ (seq 0 1) (seq 0 w)).
      + rewrite R1. reflexivity.
      + rewrite C1. apply sall_spec.
      + left. cbn [mh]. rewrite !seq_length. lia.
    - destruct (_determine_kimax (Z.of_nat (mh x)) kimax) as [[ki si]|]; [|reflexivity].
      destruct (@half_bad _ _ F) as [->|(k & m & -> & L)]; [reflexivity|]. cbn [bind]. rewrite np_empty_neg by auto. reflexivity.
  Qed.

  Lemma fft2_crop_bad x kimax kjmax : 1 <= mh x -> 1 <= mw x -> ~ (fits (mh x) kimax /\ fits (mw x) kjmax) -> fft2_crop x kimax kjmax = Raise ValueError.
  Proof.
    intros H0 G0 H. assert (C : fft2_crop x kimax kjmax =
        (let* (kisize, kjsize, istop, jstop) := _determine_cutoff_indices (mh x) (mw x) kimax kjmax Fft2 in
        let* out := np_empty junk kisize kjsize in
        let* y := mget x (sto istop) (sto jstop) in
        let* out := mset out (sto istop) (sto jstop) y in
        let* y := mget x (sfrom (- istop + 1)) (sto jstop) in
        let* out := mset out (sfrom (- istop + 1)) (sto jstop) y in
        let* y := mget x (sto istop) (sfrom (- jstop + 1)) in
        let* out := mset out (sto istop) (sfrom (- jstop + 1)) y in
        let* y := mget x (sfrom (- istop + 1)) (sfrom (- jstop + 1)) in
        mset out (sfrom (- istop + 1)) (sfrom (- jstop + 1)) y)) by (destruct kimax, kjmax; try reflexivity; cbn in H; tauto).
    rewrite C. unfold _determine_cutoff_indices. cbn [bind]. clear C.
    assert (Two : forall n kmax, 1 <= n -> _determine_kimax (Z.of_nat n) kmax = None \/ (exists k m, _determine_kimax (Z.of_nat n) kmax = Some (k, m) /\ (m < 0)%Z) \/
       exists k m, _determine_kimax (Z.of_nat n) kmax = Some (Z.of_nat k, Z.of_nat m) /\ indices n (sto (Z.of_nat k + 1)) = Ok (seq 0 (k + 1)) /\ indices m (sto (Z.of_nat k + 1)) = Ok (seq 0 (k + 1)) /\
         (fits n kmax -> exists t, indices n (sfrom (- (Z.of_nat k + 1) + 1)) = Ok (seq (n - t) t) /\ indices m (sfrom (- (Z.of_nat k + 1) + 1)) = Ok (seq (m - t) t)) /\
         (~ fits n kmax -> 2 <= n /\ k = 0 /\ m = 1)).
    { intros n kmax Hn. destruct (fits_dec n kmax) as [F|F].
      - right. right. destruct (@axis_ok _ _ Hn F) as (k & t & D & K1 & K2 & K3 & K4 & K5 & K6 & I1 & I2 & I3 & I4 & _). exists k, (cropped n kmax). split; [exact D|]. split; [exact I1|]. split; [exact I2|].
        split; [intros _; exists t; auto|]. intros N; contradiction.
      - destruct (@axis_bad _ _ Hn F) as [E|[E|[E L]]]; [auto|auto|]. right. right. exists 0, 1. split; [exact E|].
        split; [change (Z.of_nat 0 + 1)%Z with 1%Z; rewrite sto_spec by lia; reflexivity|]. split; [reflexivity|]. split; [intros N; contradiction|auto]. }
    destruct (Two (mh x) kimax H0) as [->|[(k & m & -> & L)|(k & m & -> & I1 & I2 & I3 & I4)]]; [reflexivity| |].
    { destruct (_determine_kimax (Z.of_nat (mw x)) kjmax) as [[kj sj]|]; [|reflexivity]. cbn [bind]. rewrite np_empty_neg by auto. reflexivity. }
    destruct (Two (mw x) kjmax G0) as [->|[(l & w & -> & L)|(l & w & -> & J1 & J2 & J3 & J4)]]; [reflexivity| |].
    { cbn [bind]. rewrite np_empty_neg by auto. reflexivity. }
    cbn [bind]. rewrite np_empty_ok. cbn [bind]. rewrite (mget_ok x _ _ I1 J1). cbn [bind].
    match goal with |- context [mset (Mat m w junk) ?i ?c ?y] => destruct (@mset_ok A (Mat m w junk) i c y 0 (k + 1) 0 (l + 1)) as (o1 & -> & R1 & C1 & V1) end;
      [exact I2|exact J2|cbn [mh]; rewrite seq_length; reflexivity|cbn [mw]; rewrite seq_length; reflexivity|].
    cbn [bind]. cbn [mh mw mat_at] in R1, C1.
    assert (B : forall n, 1 <= n -> indices n (sfrom 0) = Ok (seq 0 n)) by (intros n Hn; rewrite sfrom_pos by lia; f_equal; f_equal; lia).
    destruct (fits_dec (mh x) kimax) as [F|F].
    - destruct (I3 F) as (t & A1 & A2). assert (N : ~ fits (mw x) kjmax) by tauto. destruct (J4 N) as (W & -> & ->).
      rewrite (mget_ok x _ _ A1 J1). cbn [bind].
      match goal with |- context [mset o1 ?i ?c ?y] => destruct (@mset_ok A o1 i c y (m - t) t 0 (0 + 1)) as (o2 & -> & R2 & C2 & V2) end;
        [rewrite R1; exact A2|rewrite C1; exact J2|cbn [mh]; rewrite seq_length; reflexivity|cbn [mw]; rewrite seq_length; reflexivity|].
      cbn [bind]. change (- (Z.of_nat 0 + 1) + 1)%Z with 0%Z. rewrite (mget_ok x _ _ I1 (B _ G0)). cbn [bind].
      rewrite (@mset_bad _ _ _ _ _ (seq 0 (k + 1)) (seq 0 1)).
      + reflexivity.
      + rewrite R2, R1. exact I2.
      + rewrite C2, C1. reflexivity.
      + right. cbn [mw]. rewrite !seq_length. lia.
    - destruct (I4 F) as (W & -> & ->). change (- (Z.of_nat 0 + 1) + 1)%Z with 0%Z. rewrite (mget_ok x _ _ (B _ H0) J1). cbn [bind].
      rewrite (@mset_bad _ _ _ _ _ (seq 0 1) (seq 0 (l + 1))).
      + reflexivity.
      + rewrite R1. reflexivity.
      + rewrite C1. exact J2.
      + left. cbn [mh]. rewrite !seq_length. lia.
  Qed.
End CropBad.

(* ------------------------------------------------------------------ *)
(** * Half-plane and full-plane data *)
Section Halves.
  Variable A : Type.
  Variable junk : nat -> nat -> A.
  Variable cj : A -> A.
  Variable fill : A.
  Implicit Types a f : mat A.

  Lemma as_rfft2_data_ok a : 1 <= mw a -> exists m, as_rfft2_data a = Ok m /\ mh m = mh a /\ mw m = mw a / 2 + 1 /\
    forall i j, i < mh m -> j < mw m -> mat_at m i j = mat_at a i j.
  Proof using. clear junk cj fill.
    intros H. unfold as_rfft2_data. rewrite (mget_ok a _ _ (sall_spec (mh a)) (@sl_spec (mw a) (Z.of_nat (mw a) / 2 + 1)%Z ltac:(lia))).
    eexists. split; [reflexivity|]. cbn [mh mw mat_at]. rewrite !seq_length. split; [reflexivity|]. split; [lia|]. intros i j Hi Hj. rewrite !seq_nth by lia. reflexivity.
  Qed.

  Lemma as_rfft2_conj_ok a : 1 <= mh a -> 1 <= mw a -> exists m, as_rfft2_conj fill a = Ok m /\ mh m = mh a /\ mw m = mw a / 2 + 1 /\
    forall i j, i < mh m -> j < mw m -> mat_at m i j = if j =? 0 then fill else at_freq a (- Z.of_nat i) (- Z.of_nat j).
  Proof using. clear junk cj.
    intros H0 H. unfold as_rfft2_conj. set (wh := (Z.of_nat (mw a) / 2 + 1)%Z). assert (Hw : (1 <= wh <= Z.of_nat (mw a))%Z) by (subst wh; lia).
    rewrite (mget_ok a _ _ (sall_spec (mh a)) (@sl_spec (mw a) wh ltac:(lia))). cbn [bind mh mw]. rewrite !seq_length.
    rewrite (mget_ok a _ _ (srev0_spec H0) (@srev_spec (mw a) wh ltac:(lia))). cbn [bind]. rewrite !map_length, !seq_length.
    match goal with |- context [mset ?m ?i ?c ?y] => destruct (@mset_ok A m i c y 1 (mh a - 1) 1 (Z.to_nat (wh - 1))) as (o1 & -> & R1 & C1 & V1) end;
      [cbn [mh]; rewrite sfrom_pos by lia; reflexivity|cbn [mw]; rewrite sfrom_pos by lia; f_equal; f_equal; lia|reflexivity|reflexivity|].
    cbn [bind]. cbn [mh mw mat_at] in R1, C1, V1.
    rewrite (mget_ok a _ _ (int0_spec H0) (@srev_spec (mw a) wh ltac:(lia))). cbn [bind]. rewrite !map_length, !seq_length.
    match goal with |- context [mset o1 ?i ?c ?y] => destruct (@mset_ok A o1 i c y 0 1 1 (Z.to_nat (wh - 1))) as (o2 & -> & R2 & C2 & V2) end;
      [rewrite R1; rewrite int0_spec by lia; reflexivity|rewrite C1; rewrite sfrom_pos by lia; f_equal; f_equal; lia|reflexivity|reflexivity|].
    cbn [mh mw mat_at] in R2, C2, V2. exists o2. split; [reflexivity|]. split; [congruence|]. split; [rewrite C2, C1; subst wh; lia|].
    rewrite R2, R1, C2, C1. intros i j Hi Hj. rewrite V2, V1. destruct (j =? 0) eqn:E.
    - replace (1 <=? j) with false by lia. cbn [andb]. rewrite !andb_false_r. reflexivity.
    - replace (1 <=? j) with true by lia. replace (j <? 1 + Z.to_nat (wh - 1)) with true by lia. cbn [andb]. rewrite !andb_true_r. unfold at_freq.
      rewrite (@freq_neg (mw a)) by lia. change (0 <=? i) with true. cbn [andb]. destruct (i =? 0) eqn:F.
      + replace i with 0 by lia. change (0 <? 0 + 1) with true. cbv iota. change (0 - 0) with 0. cbn [nth]. change (- Z.of_nat 0)%Z with 0%Z. rewrite freq_pos by lia.
        rewrite nth_map_seq by lia. f_equal; lia.
      + replace (i <? 0 + 1) with false by lia. replace (1 <=? i) with true by lia. replace (i <? 1 + (mh a - 1)) with true by lia. cbn [andb].
        rewrite (@freq_neg (mh a)) by lia. rewrite !nth_map_seq by lia. f_equal; lia.
  Qed.

  (** What [from_rfft2_data] builds, once the new shape is known. *)
  Lemma from_rfft2_ok a shape w : 1 <= mh a -> 1 <= w -> mw a = w / 2 + 1 -> as_fft2_shape (Some (Z.of_nat (mh a))) (Some (Z.of_nat (mw a))) shape = Ok (Z.of_nat (mh a), Z.of_nat w) ->
    exists m, from_rfft2_data junk cj a shape = Ok m /\ mh m = mh a /\ mw m = w /\
      forall i j, i < mh m -> j < w -> mat_at m i j = if j <? (w + 1) / 2 then mat_at a i j else cj (mat_at a (freq (mh a) (- Z.of_nat i)) (w - j)).
  Proof using. clear fill.
    intros H0 H1 HW HS. unfold from_rfft2_data. rewrite HS. cbn [bind]. rewrite np_empty_ok. cbn [bind].
    set (wh := (Z.of_nat w / 2 + 1)%Z). set (w2 := ((Z.of_nat w + 1) / 2)%Z). assert (Hw : (1 <= wh <= Z.of_nat w)%Z) by (subst wh; lia). assert (Ea : Z.of_nat (mw a) = wh) by (subst wh; lia).
    match goal with |- context [mset ?m ?i ?c ?y] => destruct (@mset_ok A m i c y 0 (mh a) 0 (mw a)) as (o1 & -> & R1 & C1 & V1) end;
      [apply sall_spec|cbn [mw]; rewrite sl_spec by lia; f_equal; f_equal; lia|reflexivity|reflexivity|].
    cbn [bind]. cbn [mh mw mat_at] in R1, C1, V1. rewrite (mget_ok a _ _ (srev0_spec H0) (@srev_spec (mw a) wh ltac:(lia))). cbn [bind]. rewrite !map_length, !seq_length.
    match goal with |- context [mset ?m ?i ?c ?y] => destruct (@mset_ok A m i c y 1 (mh a - 1) (Z.to_nat w2) (Z.to_nat (wh - 1))) as (o2 & -> & R2 & C2 & V2) end;
      [rewrite R1; rewrite sfrom_pos by lia; reflexivity|rewrite C1; rewrite sfrom_pos by (subst w2; lia); f_equal; f_equal; subst wh w2; lia|reflexivity|reflexivity|].
    cbn [bind]. cbn [mh mw mat_at] in R2, C2, V2. rewrite (mget_ok a _ _ (int0_spec H0) (@srev_spec (mw a) wh ltac:(lia))). cbn [bind]. rewrite !map_length, !seq_length.
    match goal with |- context [mset ?m ?i ?c ?y] => destruct (@mset_ok A m i c y 0 1 (Z.to_nat w2) (Z.to_nat (wh - 1))) as (o3 & -> & R3 & C3 & V3) end;
      [rewrite R2, R1; rewrite int0_spec by lia; reflexivity|rewrite C2, C1; rewrite sfrom_pos by (subst w2; lia); f_equal; f_equal; subst wh w2; lia|reflexivity|reflexivity|].
    cbn [mh mw mat_at] in R3, C3, V3. exists o3. split; [reflexivity|]. split; [congruence|]. split; [congruence|]. rewrite R3, R2, R1. intros i j Hi Hj. rewrite V3, V2, V1.
    assert (E2 : Z.to_nat w2 = (w + 1) / 2) by (subst w2; lia). assert (E1 : Z.to_nat (wh - 1) = w / 2) by (subst wh; lia). rewrite E1, E2.
    replace (j <? (w + 1) / 2 + w / 2) with true by lia. rewrite !andb_true_r. change (0 <=? i) with true. change (0 <=? j) with true. cbn [andb].
    destruct (j <? (w + 1) / 2) eqn:E.
    - replace ((w + 1) / 2 <=? j) with false by lia. rewrite !andb_false_r. replace (i <? 0 + mh a) with true by lia. replace (j <? 0 + mw a) with true by lia. cbn [andb]. f_equal; lia.
    - replace ((w + 1) / 2 <=? j) with true by lia. rewrite !andb_true_r. destruct (i =? 0) eqn:F.
      + replace i with 0 by lia. change (0 <? 0 + 1) with true. cbv iota. change (0 - 0) with 0. cbn [nth]. change (- Z.of_nat 0)%Z with 0%Z. rewrite freq_pos by lia. rewrite nth_map_seq by lia. do 2 f_equal. lia.
      + replace (i <? 0 + 1) with false by lia. replace (1 <=? i) with true by lia. replace (i <? 1 + (mh a - 1)) with true by lia. cbn [andb].
        rewrite freq_neg by lia. rewrite !nth_map_seq by lia. do 2 f_equal; lia.
  Qed.
End Halves.
