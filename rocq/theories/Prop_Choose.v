(** C80: multiple-tau correlation with randomly chosen samples (BINNING_CHOOSE), and the fast part of the data. *)
From Verif Require Import Base PairSpec Kernels KernelProofs RegularProofs CoreProofs2 CoreModel FftModel NormModel CorrModel MultiModel MultiSpec MultiProofs MultiLevels FftProofs Prop_Norm1 Prop_Fft Prop_Multi MultiComplex Examples.
From Coq Require Import String ZifyBool ZifyNat.
Ltac Zify.zify_post_hook ::= Z.div_mod_to_equations.
Open Scope string_scope.
Open Scope nat_scope.
Open Scope list_scope.
Local Notation length := List.length.
Set Implicit Arguments.

(** The frame at which the samples of level [l] start, if the later of two samples is taken at the levels [j] with [r j]: the number with these binary digits *)
Definition choice (r : nat -> bool) (l : nat) : nat := Sum natmon (seq 0 l) (fun j => if r j then 2 ^ j else 0).
(** Every 2^l-th sample, from frame [o] on; one from each complete block of 2^l frames *)
Definition every (G : QGrp) (l o : nat) (f : list G) : list G := map (fun k => nth (o + k * 2 ^ l) f (m0 G)) (seq 0 (length f / 2 ^ l)).

Lemma choice_S r l : choice r (S l) = choice r l + (if r l then 2 ^ l else 0).
Proof. unfold choice. rewrite seq_S, Sum_app. cbn [plus]. unfold Sum at 2, lsum. cbn. lia. Qed.
Lemma choice_lt r l : choice r l < 2 ^ l.
Proof. induction l as [|l IH]; [cbn; lia|]. rewrite choice_S. cbn [Nat.pow]. destruct (r l); lia. Qed.

Section Every.
  Variable G : QGrp.
  Lemma every_length l o (f : list G) : length (every G l o f) = length f / 2 ^ l.
  Proof. unfold every. rewrite map_length, seq_length. reflexivity. Qed.
  Lemma nth_every l o (f : list G) k : k < length f / 2 ^ l -> nth k (every G l o f) (m0 G) = nth (o + k * 2 ^ l) f (m0 G).
  Proof. intros H. unfold every. rewrite nth_map_seq by exact H. reflexivity. Qed.
  Lemma choose_length r (f : list G) : length (choose_data G r f) = length f / 2.
  Proof. unfold choose_data. destruct r; rewrite strided_length; lia. Qed.
  Lemma nth_choose r (f : list G) k : k < length f / 2 -> nth k (choose_data G r f) (m0 G) = nth ((if r then 1 else 0) + 2 * k) f (m0 G).
  Proof. intros H. unfold choose_data. destruct r; rewrite nth_strided by lia; f_equal; lia. Qed.
  Lemma every_0 (f : list G) : every G 0 0 f = f.
  Proof.
    apply list_nth_ext with (d := m0 G); [rewrite every_length; apply Nat.div_1_r|]. rewrite every_length. intros k Hk.
    rewrite nth_every by exact Hk. f_equal. cbn. lia.
  Qed.
  Lemma every_S r l (f : list G) : choose_data G (r l) (every G l (choice r l) f) = every G (S l) (choice r (S l)) f.
  Proof.
    assert (HD : length f / 2 ^ l / 2 = length f / 2 ^ S l) by (rewrite Nat.div_div by (try lia; apply Nat.pow_nonzero; lia); f_equal; cbn [Nat.pow]; lia).
    apply list_nth_ext with (d := m0 G); [rewrite choose_length, !every_length; exact HD|].
    rewrite choose_length, every_length. intros k Hk. rewrite nth_choose by (rewrite every_length; exact Hk). rewrite nth_every by (destruct (r l); lia).
    rewrite nth_every by (rewrite <- HD; exact Hk). rewrite choice_S. f_equal. cbn [Nat.pow]. destruct (r l); lia.
  Qed.
End Every.

(** The arguments with which the fast part of the data is calculated: the times of the caller, less the smallest of them *)
Theorem C80_fast K V zero complex cc aligned rs f1 f2 t1 t2 period level_size binning nlevel norm method m b nm fast slow :
  @multi_cross K V zero complex cc aligned rs f1 f2 t1 t2 period level_size binning nlevel norm method = Ok (fast, slow) ->
  _default_method_and_binning method binning = Ok (m, b) -> _default_norm norm m true = Ok nm ->
  (t1 = None /\ t2 = None /\ cc (aligned 0) f1 f2 None None (Some (period * level_size)) (Some nm) (Some m) (squares_arg nm m f1) (squares_arg nm m f2) None = Ok fast) \/
  exists T1 T2 z, t1 = Some T1 /\ t2 = Some T2 /\ In z (T1 ++ T2) /\ (forall x, In x (T1 ++ T2) -> (z <= x)%Z) /\
    cc (aligned 0) f1 f2 (Some (map (fun x => x - z)%Z T1)) (Some (map (fun x => x - z)%Z T2)) (Some (period * level_size)) (Some nm) (Some m) (squares_arg nm m f1) (squares_arg nm m f2) None = Ok fast.
Proof.
  intros H HM HN. unfold multi_cross in H. rewrite HM in H. cbn [bind] in H. rewrite HN in H. cbn [bind] in H.
  rewrite (correlate_eq _ _ HM) in H. fold (squares_arg nm m f1) in H. fold (squares_arg nm m f2) in H.
  apply bind_ok in H. destruct H as ([ts n] & HI & H). apply bind_ok in H. destruct H as ([[nf ns] nl] & HD & H).
  apply bind_ok in H. destruct H as (df & HF & H). apply bind_ok in H. destruct H as (ds & HS & H).
  assert (df = fast) by (injection H; auto). subst df.
  unfold _inspect_cross_arguments in HI. destruct t1 as [T1|], t2 as [T2|]; cbn [bind] in HI; try discriminate;
    destruct (negb (length f1 =? length f2)); try discriminate; cbn [bind] in HI.
  - right. apply bind_ok in HI. destruct HI as (s & HI & HE). apply bind_ok in HI. destruct HI as ([S1 S2] & HI & HE').
    assert (ts = Some (S1, S2) /\ n = level_size) as [-> ->] by (split; congruence).
    assert (nf = period * level_size) as -> by (unfold _determine_lengths in HD; destruct (level_size <=? 4); [discriminate|]; match type of HD with (if ?c then _ else _) = _ => destruct c end; [discriminate|]; congruence).
    unfold _shift_cross in HI. apply bind_ok in HI. destruct HI as (z1 & HZ1 & HI). apply bind_ok in HI. destruct HI as (z2 & HZ2 & HI). cbv zeta in HI.
    exists T1, T2, (Z.min z1 z2). split; [reflexivity|]. split; [reflexivity|].
    destruct (zmin_list_spec _ HZ1) as [I1 M1]. destruct (zmin_list_spec _ HZ2) as [I2 M2].
    split; [apply in_or_app; destruct (Z.min_spec z1 z2) as [[_ ->]|[_ ->]]; auto|].
    split; [intros x Hx; apply in_app_or in Hx; destruct Hx as [Hx|Hx]; [specialize (M1 x Hx)|specialize (M2 x Hx)]; lia|].
    assert (S1 = map (fun t => (t - Z.min z1 z2)%Z) T1 /\ S2 = map (fun t => (t - Z.min z1 z2)%Z) T2) as [-> ->] by (injection HI as <- <-; split; reflexivity).
    exact HF.
  - left. split; [reflexivity|]. split; [reflexivity|]. assert (ts = None /\ n = level_size) as [-> ->] by (split; congruence).
    assert (nf = period * level_size) as -> by (unfold _determine_lengths in HD; destruct (level_size <=? 4); [discriminate|]; match type of HD with (if ?c then _ else _) = _ => destruct c end; [discriminate|]; congruence).
    exact HF.
Qed.
Print Assumptions C80_fast.

Section Choose.
  Variable K : Fld.
  Notation C := (Cx K).
  Variable V : Type.
  Variable zero : V.
  Variable complex : bool.
  Variable cc : bool -> list C -> list C -> option (list Z) -> option (list Z) -> option nat ->
    option Z -> option string -> option (list K) -> option (list K) -> option (cdata K V) -> res (cdata K V).
  Variable ac : bool -> list C -> option (list Z) -> option (list K) -> option nat ->
    option Z -> option string -> option (cdata K V) -> res (cdata K V).
  Variable aligned : nat -> bool.
  Variable rs : nat -> nat -> bool.
  Notation pick G j l f := (every G l (choice (fun i => rs i j) l) f).

  Lemma pick_S (G : QGrp) j i (f : list G) : bin_data G BINNING_CHOOSE (rs i j) (pick G j i f) = pick G j (S i) f.
  Proof. clear. exact (every_S G (fun i => rs i j) i f). Qed.

  Lemma choose_levels todo : forall i norm method n f1 f2 f1s f2s rows,
    multi_levels zero complex cc aligned rs todo i BINNING_CHOOSE norm method n (pick (cgrp K) 0 i f1) (pick (cgrp K) 1 i f2)
      (option_map (fun s => pick (fgrp K) 2 i s) f1s) (option_map (fun s => pick (fgrp K) 3 i s) f2s) = Ok rows ->
    length rows = todo /\ forall l, l < todo ->
      cc (aligned (S (i + l))) (pick (cgrp K) 0 (S (i + l)) f1) (pick (cgrp K) 1 (S (i + l)) f2) None None (Some n) (Some norm) (Some method)
        (option_map (fun s => pick (fgrp K) 2 (S (i + l)) s) f1s) (option_map (fun s => pick (fgrp K) 3 (S (i + l)) s) f2s)
        (Some (slow_row K zero complex true (negb (String.eqb method "diff")) norm n)) = Ok (nth l rows DBad).
  Proof.
    clear ac.
    induction todo as [|todo IH]; intros i norm method n f1 f2 f1s f2s rows H; cbn [multi_levels] in H.
    - injection H as <-. split; [reflexivity|]. intros l Hl. exfalso. exact (Nat.nlt_0_r _ Hl).
    - rewrite !opt_map_map in H. rewrite !pick_S in H.
      assert (E : forall o j, option_map (fun x => bin_data (fgrp K) BINNING_CHOOSE (rs i j) (pick (fgrp K) j i x)) o = option_map (fun s => pick (fgrp K) j (S i) s) o)
        by (intros [o|] j; cbn [option_map]; [rewrite pick_S|]; reflexivity).
      rewrite !E in H. apply bind_ok in H. destruct H as (row & HR & H). apply bind_ok in H. destruct H as (rest & HT & H).
      injection H as <-. destruct (IH _ _ _ _ _ _ _ _ _ HT) as [HL HN]. split; [cbn; rewrite HL; reflexivity|].
      intros [|l] Hl; [rewrite Nat.add_0_r; exact HR|]. rewrite Nat.add_succ_r. apply HN. apply Nat.succ_lt_mono. exact Hl.
  Qed.
  Lemma choose_levels_auto todo : forall i norm method n f fs rows,
    multi_levels_auto zero complex ac aligned rs todo i BINNING_CHOOSE norm method n (pick (cgrp K) 0 i f) (option_map (fun s => pick (fgrp K) 1 i s) fs) = Ok rows ->
    length rows = todo /\ forall l, l < todo ->
      ac (aligned (S (i + l))) (pick (cgrp K) 0 (S (i + l)) f) None (option_map (fun s => pick (fgrp K) 1 (S (i + l)) s) fs) (Some n) (Some norm) (Some method)
        (Some (slow_row K zero complex false (negb (String.eqb method "diff")) norm n)) = Ok (nth l rows DBad).
  Proof.
    clear cc.
    induction todo as [|todo IH]; intros i norm method n f fs rows H; cbn [multi_levels_auto] in H.
    - injection H as <-. split; [reflexivity|]. intros l Hl. exfalso. exact (Nat.nlt_0_r _ Hl).
    - rewrite !opt_map_map in H. rewrite !pick_S in H.
      assert (E : forall o j, option_map (fun x => bin_data (fgrp K) BINNING_CHOOSE (rs i j) (pick (fgrp K) j i x)) o = option_map (fun s => pick (fgrp K) j (S i) s) o)
        by (intros [o|] j; cbn [option_map]; [rewrite pick_S|]; reflexivity).
      rewrite !E in H. apply bind_ok in H. destruct H as (row & HR & H). apply bind_ok in H. destruct H as (rest & HT & H).
      injection H as <-. destruct (IH _ _ _ _ _ _ _ HT) as [HL HN]. split; [cbn; rewrite HL; reflexivity|].
      intros [|l] Hl; [rewrite Nat.add_0_r; exact HR|]. rewrite Nat.add_succ_r. apply HN. apply Nat.succ_lt_mono. exact Hl.
  Qed.

  Lemma pick_0 (G : QGrp) j (f : list G) : pick G j 0 f = f.
  Proof. clear. apply every_0. Qed.
  Lemma pick_0_opt j (o : option (list K)) : option_map (fun s => pick (fgrp K) j 0 s) o = o.
  Proof. clear. destruct o; cbn [option_map]; [|reflexivity]. f_equal. apply (pick_0 (fgrp K)). Qed.

  (** Level l of ccorr_multi correlates every 2^l-th frame of both signals, from frames of their own, chosen independently; the squares are those of yet other frames. *)
  Theorem C80_cross f1 f2 t1 t2 period level_size binning nlevel norm method m nm fast slow :
    multi_cross zero complex cc aligned rs f1 f2 t1 t2 period level_size binning nlevel norm method = Ok (fast, slow) ->
    _default_method_and_binning method binning = Ok (m, BINNING_CHOOSE) -> _default_norm norm m true = Ok nm ->
    forall l, l < length slow ->
      let first j := choice (fun i => rs i j) (S l) in
      (forall j, first j < 2 ^ S l) /\
      cc (aligned (S l)) (every (cgrp K) (S l) (first 0) f1) (every (cgrp K) (S l) (first 1) f2) None None (Some level_size) (Some nm) (Some m)
        (option_map (every (fgrp K) (S l) (first 2)) (squares_arg nm m f1)) (option_map (every (fgrp K) (S l) (first 3)) (squares_arg nm m f2))
        (Some (slow_row K zero complex true (negb (String.eqb m "diff")) nm level_size)) = Ok (nth l slow DBad).
  Proof.
    clear ac.
    intros H HM HN. unfold multi_cross in H. rewrite HM in H. cbn [bind] in H. rewrite HN in H. cbn [bind] in H.
    rewrite (correlate_eq _ _ HM) in H.
    apply bind_ok in H. destruct H as ([ts n] & HI & H).
    assert (n = level_size).
    { unfold _inspect_cross_arguments in HI. destruct t1, t2; cbn [bind] in HI; try discriminate;
        destruct (negb (length f1 =? length f2)); try discriminate; cbn [bind] in HI; [|congruence].
      destruct (_shift_cross l l0); [|discriminate]. cbn [bind] in HI. congruence. }
    subst n. apply bind_ok in H. destruct H as ([[nf ns] nl] & HD & H).
    assert (ns = level_size).
    { unfold _determine_lengths in HD. destruct (level_size <=? 4); [discriminate|].
      match type of HD with (if ?c then _ else _) = _ => destruct c end; [discriminate|]. congruence. }
    subst ns. apply bind_ok in H. destruct H as (df & HF & H). apply bind_ok in H. destruct H as (ds & HS & H). injection H as <- <-.
    fold (squares_arg nm m f1) in HS. fold (squares_arg nm m f2) in HS.
    pose proof (@choose_levels nl 0 nm m level_size f1 f2 (squares_arg nm m f1) (squares_arg nm m f2) ds) as HL.
    rewrite !pick_0_opt, !pick_0 in HL. destruct (HL HS) as [HE HR]. rewrite HE. intros l Hl first. split; [intros j; apply choice_lt|]. exact (HR l Hl).
  Qed.
  Theorem C80_auto f t period level_size binning nlevel norm method m nm fast slow :
    multi_auto zero complex ac aligned rs f t period level_size binning nlevel norm method = Ok (fast, slow) ->
    _default_method_and_binning method binning = Ok (m, BINNING_CHOOSE) -> _default_norm norm m false = Ok nm ->
    forall l, l < length slow ->
      let first j := choice (fun i => rs i j) (S l) in
      (forall j, first j < 2 ^ S l) /\
      ac (aligned (S l)) (every (cgrp K) (S l) (first 0) f) None (option_map (every (fgrp K) (S l) (first 1)) (squares_arg nm m f)) (Some level_size) (Some nm) (Some m)
        (Some (slow_row K zero complex false (negb (String.eqb m "diff")) nm level_size)) = Ok (nth l slow DBad).
  Proof.
    clear cc.
    intros H HM HN. unfold multi_auto in H. rewrite HM in H. cbn [bind] in H. rewrite HN in H. cbn [bind] in H.
    rewrite (correlate_eq _ _ HM) in H.
    apply bind_ok in H. destruct H as ([ts n] & HI & H).
    assert (n = level_size).
    { unfold _inspect_auto_arguments in HI. cbn [bind] in HI. destruct t as [t|]; cbn [bind] in HI; [|congruence]. destruct (zmin_list t); cbn [bind] in HI; congruence. }
    subst n. apply bind_ok in H. destruct H as ([[nf ns] nl] & HD & H).
    assert (ns = level_size).
    { unfold _determine_lengths in HD. destruct (level_size <=? 4); [discriminate|].
      match type of HD with (if ?c then _ else _) = _ => destruct c end; [discriminate|]. congruence. }
    subst ns. apply bind_ok in H. destruct H as (df & HF & H). apply bind_ok in H. destruct H as (ds & HS & H). injection H as <- <-.
    fold (squares_arg nm m f) in HS.
    pose proof (@choose_levels_auto nl 0 nm m level_size f (squares_arg nm m f) ds) as HL.
    rewrite !pick_0_opt, !pick_0 in HL. destruct (HL HS) as [HE HR]. rewrite HE. intros l Hl first. split; [intros j; apply choice_lt|]. exact (HR l Hl).
  Qed.
End Choose.
Print Assumptions C80_cross.
Print Assumptions C80_auto.

(** The fast part of acorr_multi *)
Theorem C80_fast_auto K V zero complex ac aligned rs f t period level_size binning nlevel norm method m b nm fast slow :
  @multi_auto K V zero complex ac aligned rs f t period level_size binning nlevel norm method = Ok (fast, slow) ->
  _default_method_and_binning method binning = Ok (m, b) -> _default_norm norm m false = Ok nm ->
  (t = None /\ ac (aligned 0) f None (squares_arg nm m f) (Some (period * level_size)) (Some nm) (Some m) None = Ok fast) \/
  exists T z, t = Some T /\ In z T /\ (forall x, In x T -> (z <= x)%Z) /\
    ac (aligned 0) f (Some (map (fun x => x - z)%Z T)) (squares_arg nm m f) (Some (period * level_size)) (Some nm) (Some m) None = Ok fast.
Proof.
  intros H HM HN. unfold multi_auto in H. rewrite HM in H. cbn [bind] in H. rewrite HN in H. cbn [bind] in H.
  rewrite (correlate_eq _ _ HM) in H. fold (squares_arg nm m f) in H.
  apply bind_ok in H. destruct H as ([ts n] & HI & H). apply bind_ok in H. destruct H as ([[nf ns] nl] & HD & H).
  apply bind_ok in H. destruct H as (df & HF & H). apply bind_ok in H. destruct H as (ds & HS & H).
  assert (df = fast) by (injection H; auto). subst df.
  unfold _inspect_auto_arguments in HI. cbn [bind] in HI. destruct t as [T|]; cbn [bind] in HI.
  - right. apply bind_ok in HI. destruct HI as (s & HI & HE). apply bind_ok in HI. destruct HI as (z & HZ & HI).
    assert (ts = Some (map (fun x => (x - z)%Z) T) /\ n = level_size) as [-> ->] by (split; congruence).
    assert (nf = period * level_size) as -> by (unfold _determine_lengths in HD; destruct (level_size <=? 4); [discriminate|]; match type of HD with (if ?c then _ else _) = _ => destruct c end; [discriminate|]; congruence).
    destruct (zmin_list_spec _ HZ) as [I M]. exists T, z. auto.
  - left. split; [reflexivity|]. assert (ts = None /\ n = level_size) as [-> ->] by (split; congruence).
    assert (nf = period * level_size) as -> by (unfold _determine_lengths in HD; destruct (level_size <=? 4); [discriminate|]; match type of HD with (if ?c then _ else _) = _ => destruct c end; [discriminate|]; congruence).
    exact HF.
Qed.
Print Assumptions C80_fast_auto.

(** Delay d of level l with the first frames o1 and o2 is a sum over frames at a distance of d 2^l + o2 - o1 *)
Theorem C80_delay (K : Fld) (f1 f2 : list (Cx K)) l o1 o2 d : length f1 = length f2 ->
  corr_complex_spec (regular (every (cgrp K) l o1 f1)) (regular (every (cgrp K) l o2 f2)) (Z.of_nat d) =
  Sum (cmon K) (seq 0 (length f1 / 2 ^ l - d)) (fun k => let i := o1 + k * 2 ^ l in let D := (Z.of_nat d * Z.of_nat (2 ^ l) + Z.of_nat o2 - Z.of_nat o1)%Z in
    cmul (conj (nth i f1 (c0 K))) (nth (Z.to_nat (Z.of_nat i + D)) f2 (c0 K))).
Proof.
  intros HL. unfold corr_complex_spec.
  assert (L1 : @List.length (Cx K) (every (cgrp K) l o1 f1) = length f1 / 2 ^ l) by exact (every_length (cgrp K) l o1 f1).
  assert (L2 : @List.length (Cx K) (every (cgrp K) l o2 f2) = length f1 / 2 ^ l) by (rewrite HL; exact (every_length (cgrp K) l o2 f2)).
  rewrite (@regular_pairs_pos (cmon K) _ _ _ _ (c0 K) (c0 K)) by (rewrite L1, L2; reflexivity). rewrite L1.
  apply Sum_ext. intros k Hk. apply in_seq in Hk. unfold cx_prod. cbn [fst snd].
  assert (H1 : k < length f1 / 2 ^ l) by lia. assert (H2 : k + d < length f2 / 2 ^ l) by (rewrite <- HL; lia).
  f_equal; [exact (f_equal (@conj K) (nth_every (cgrp K) l o1 f1 H1))|].
  refine (eq_trans (nth_every (cgrp K) l o2 f2 H2) _). refine (f_equal (fun i => nth i f2 (c0 K)) _). generalize (2 ^ l). intros x. nia.
Qed.
Print Assumptions C80_delay.

(** So the delays of a level are not 0, 2^l, 2 2^l, ...: for a signal that is on in every second frame the cross-correlation with itself vanishes at all
    delays of level 1, if the first frames of the two copies differ, though the signal is perfectly correlated at all even delays;
    and, if those of the squares differ, the squares, which should be those of the samples of the level, belong to other frames. *)
Definition level_1 (rs : nat -> nat -> bool) (f : list (Cx QcF)) :=
  match ccorr_multi nW no_al rs f f None None 1 5 (Some BINNING_CHOOSE) None (Some 3%Z) None with
  | Ok (_, [DCorr cor cnt (Some sq) None None]) => Some (map show cor, cnt, map show sq)
  | _ => None
  end.
Theorem C80_delay_refuted : exists (f : list (Cx QcF)) (rs rs' : nat -> nat -> bool),
  level_1 rs f = Some (repeat (0, 1)%Z 5, [6; 10; 8; 6; 4], [(12, 1); (20, 1); (16, 1); (12, 1); (8, 1)]%Z) /\
  level_1 rs' f = Some ([(6, 1); (10, 1); (8, 1); (6, 1); (4, 1)]%Z, [6; 10; 8; 6; 4], repeat (0, 1)%Z 5).
Proof.
  exists (map (fun k => cz (if Nat.even k then 1 else 0) 0) (seq 0 12)), (fun _ j => match j with 1 => true | _ => false end), (fun _ j => match j with 2 | 3 => true | _ => false end).
  split; vm_compute; reflexivity.
Qed.
Print Assumptions C80_delay_refuted.
