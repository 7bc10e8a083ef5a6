(** C90: spectra as they are shown. *)
From Coq Require Import ZifyNat.
From Verif Require Import Base Ordered Examples NormModel FftModel VideoModel MapModel Fft2Model SpectrumModel.
Set Implicit Arguments.

Section Shown.
  Variable K : OFld.
  Add Field Kshown : (flaw K).
  Notation C := (Cx K).
  Variable W : nat -> C.
  Variable modulus : C -> K.
  Local Notation "0" := (f0 K).
  Local Notation "1" := (f1 K).
  Local Notation "x / y" := (fdiv K x y).
  Local Notation "x + y" := (fadd K x y).
  Local Notation "x * y" := (fmul K x y).
  Local Notation "- x" := (fopp K x).
  Local Notation two := (f1 K + f1 K).

  (** The transform of a frame at row i and column j, and what the mode shows of it, with the entry of
      the mean intensity left out *)
  Definition spectrum (frame : mat K) (i j : nat) : C := dft2_at W (Mat (mh frame) (mw frame) (fun a b => cofre (mat_at frame a b))) i j.
  Definition part_of (mode : fft_mode) (z : C) : K := match mode with MReal => cre z | MImag => cim z | _ => modulus z end.
  Definition without_mean (frame : mat K) (mode : fft_mode) (i j : nat) : K := if Nat.eqb i 0%nat then (if Nat.eqb j 0%nat then 0 else part_of mode (spectrum frame i j)) else part_of mode (spectrum frame i j).
  (** m is the largest of the values of the half-plane *)
  Definition largest (frame : mat K) (f : nat -> nat -> K) (m : K) : Prop :=
    (forall i j, (i < mh frame)%nat -> (j < Nat.div (mw frame) 2 + 1)%nat -> fle (f i j) m) /\ (exists i j, (i < mh frame)%nat /\ (j < Nat.div (mw frame) 2 + 1)%nat /\ f i j = m).
  (** y is z brought into the interval from 0 to 1 *)
  Inductive limited (z : K) : K -> Prop :=
  | Inside : fle 0 z -> fle z 1 -> limited z z
  | Below : flt K z 0 = true -> limited z 0
  | Above : flt K 1 z = true -> limited z 1.
  (** The value shown for x when the scale is c *)
  Inductive shows (mode : fft_mode) (c x : K) : fval K -> Prop :=
  | Scaled y : c <> 0 -> limited (match mode with MAbs => x / c | _ => x / (two * c) + 1 / two end) y -> shows mode c x (Fin y)
  | ZeroLow : c = 0 -> flt K x 0 = true -> shows mode c x (Fin 0)
  | ZeroHigh : c = 0 -> flt K 0 x = true -> shows mode c x (Fin 1)
  | ZeroNan : c = 0 -> x = 0 -> shows mode c x NonFin.

  Lemma limited_clip z : limited z (clip01 K z).
  Proof.
    unfold clip01. destruct (flt K z 0) eqn:E; [apply Below; exact E|]. destruct (flt K 1 z) eqn:E2; [apply Above; exact E2|]. apply Inside; [exact E|exact E2].
  Qed.
  Lemma two_pos : flt K 0 two = true.
  Proof. replace two with (fnat K 2) by (cbn; ring). apply flt_fnat. discriminate. Qed.
  Lemma nonzero_dec c : (flt K c 0 || flt K 0 c)%bool = true <-> c <> 0.
  Proof.
    split.
    - intros H ->. rewrite flt_irrefl in H. discriminate.
    - intros H. destruct (flt K c 0) eqn:E1; [reflexivity|]. destruct (flt K 0 c) eqn:E2; [reflexivity|]. exfalso. apply H. apply flt_total; assumption.
  Qed.
  Lemma shown_abs c x : shows MAbs c x (shown_at K x c 0).
  Proof.
    unfold shown_at. destruct (flt K c 0 || flt K 0 c)%bool eqn:E.
    - apply Scaled; [apply nonzero_dec; exact E|]. replace (x / c + 0) with (x / c) by ring. apply limited_clip.
    - assert (c = 0). { apply orb_false_iff in E. apply flt_total; tauto. } destruct (flt K x 0) eqn:E1; [apply ZeroLow; assumption|]. destruct (flt K 0 x) eqn:E2; [apply ZeroHigh; assumption|]. apply ZeroNan; [assumption|]. apply flt_total; assumption.
  Qed.
  Lemma shown_sym mode c x : mode <> MAbs -> shows mode c x (shown_at K x (c * two) (1 / two)).
  Proof.
    intros M. pose proof (@flt_neq K _ _ two_pos) as N2. unfold shown_at. destruct (flt K (c * two) 0 || flt K 0 (c * two))%bool eqn:E.
    - assert (c <> 0). { intros ->. apply nonzero_dec in E. apply E. ring. }
      apply Scaled; [assumption|]. destruct mode; try congruence; (replace (two * c) with (c * two) by ring); apply limited_clip.
    - assert (c = 0).
      { destruct (flt K c 0 || flt K 0 c)%bool eqn:E3; [|apply orb_false_iff in E3; apply flt_total; tauto]. exfalso. apply nonzero_dec in E3. assert (c * two <> 0) as H. { intros H. apply E3. assert (two <> 0) by (intros Q; apply N2; symmetry; exact Q). replace c with (c * two / two) by (field; assumption). rewrite H. field. assumption. }
        apply nonzero_dec in H. congruence. }
      destruct (flt K x 0) eqn:E1; [apply ZeroLow; assumption|]. destruct (flt K 0 x) eqn:E2; [apply ZeroHigh; assumption|]. apply ZeroNan; [assumption|]. apply flt_total; assumption.
  Qed.
  Lemma mat_max_spec (x : mat K) : (0 < mh x)%nat -> (0 < mw x)%nat ->
    (forall i j, (i < mh x)%nat -> (j < mw x)%nat -> fle (mat_at x i j) (mat_max K x)) /\ exists i j, (i < mh x)%nat /\ (j < mw x)%nat /\ mat_at x i j = mat_max K x.
  Proof.
    intros Hh Hw. unfold mat_max. set (f := fun m p => if flt K m (mat_at x (fst p) (snd p)) then mat_at x (fst p) (snd p) else m).
    assert (G : forall l m, (forall p, In p l -> fle (mat_at x (fst p) (snd p)) (fold_left f l m)) /\ fle m (fold_left f l m) /\ (fold_left f l m = m \/ exists p, In p l /\ mat_at x (fst p) (snd p) = fold_left f l m)).
    { induction l as [|p l IH]; intros m; [split; [intros p []|split; [apply fle_refl|left; reflexivity]]|]. cbn [fold_left]. destruct (IH (f m p)) as (I1 & I2 & I3).
      assert (F : fle (mat_at x (fst p) (snd p)) (f m p) /\ fle m (f m p)). { unfold f. destruct (flt K m (mat_at x (fst p) (snd p))) eqn:E; split; try apply fle_refl; [apply flt_le; exact E|exact E]. }
      split; [intros p' [<-|H]; [exact (@fle_trans K _ _ _ (proj1 F) I2)|exact (I1 p' H)]|]. split; [exact (@fle_trans K _ _ _ (proj2 F) I2)|]. destruct I3 as [I3|(p' & H & I3)]; [|right; exists p'; split; [right; exact H|exact I3]].
      rewrite I3. unfold f. destruct (flt K m (mat_at x (fst p) (snd p))); [right; exists p; split; [left; reflexivity|reflexivity]|left; reflexivity]. }
    destruct (G (list_prod (seq 0 (mh x)) (seq 0 (mw x))) (mat_at x 0%nat 0%nat)) as (G1 & G2 & G3). split.
    - intros i j Hi Hj. apply (G1 (i, j)). apply in_prod; apply in_seq; lia.
    - destruct G3 as [G3|((i, j) & H & G3)]; [exists 0%nat, 0%nat; repeat split; try assumption; symmetry; exact G3|]. apply in_prod_iff in H. rewrite !in_seq in H. exists i, j. repeat split; try lia. exact G3.
  Qed.
  Lemma unshift h i : (i < h)%nat -> Nat.modulo (Nat.add (Nat.modulo (Nat.add i (Nat.div h 2)) h) (Nat.sub h (Nat.div h 2))) h = i.
  Proof.
    intros H. rewrite Nat.add_mod_idemp_l by lia. assert (Nat.div h 2 <= h)%nat by (apply Nat.div_le_upper_bound; lia). replace (Nat.add (Nat.add i (Nat.div h 2)) (Nat.sub h (Nat.div h 2))) with (Nat.add i (Nat.mul 1%nat h)) by lia.
    rewrite Nat.mod_add by lia. apply Nat.mod_small. exact H.
  Qed.

  (** Every entry of the half-plane is shown, at its row moved by half the height; the scale is the one given
      or the largest value, the mean intensity not counted. *)
  Theorem C90_shown clip mode frame : mode <> MOther -> (1 <= mh frame)%nat -> (1 <= mw frame)%nat ->
    exists show out c, norm_rfft2 K W modulus clip mode = Ok show /\ show frame = Ok out /\ mh out = mh frame /\ mw out = (Nat.div (mw frame) 2 + 1)%nat /\
      match clip with Some c' => c = c' | None => largest frame (without_mean frame mode) c end /\
      forall i j, (i < mh frame)%nat -> (j < Nat.div (mw frame) 2 + 1)%nat -> shows mode c (without_mean frame mode i j) (mat_at out (Nat.modulo (Nat.add i (Nat.div (mh frame) 2)) (mh frame)) j).
  Proof.
    intros M Hh Hw.
    set (g := Mat (mh frame) (Nat.div (mw frame) 2 + 1)%nat (fun i j => if (Nat.eqb i 0%nat && Nat.eqb j 0%nat)%bool then 0 else part_of mode (spectrum frame i j))).
    assert (Eg : forall i j, mat_at g i j = without_mean frame mode i j). { intros i j. unfold without_mean. cbn [g mat_at]. destruct (Nat.eqb i 0%nat), (Nat.eqb j 0%nat); reflexivity. }
    set (c := match clip with None => mat_max K g | Some c => c end).
    set (s := match mode with MAbs => Mat (mh g) (mw g) (fun i j => shown_at K (mat_at g i j) c 0) | _ => Mat (mh g) (mw g) (fun i j => shown_at K (mat_at g i j) (c * two) (1 / two)) end).
    exists (_clip_fft K W modulus clip mode), (fftshift0 s), c. split; [destruct mode; [reflexivity..|congruence]|]. split.
    { unfold _clip_fft, _rfft2. destruct (Nat.eqb_spec (mh frame) 0%nat); [lia|]. destruct (Nat.eqb_spec (mw frame) 0%nat); [lia|]. destruct mode; reflexivity. }
    assert (Ms : mh s = mh frame /\ mw s = (Nat.div (mw frame) 2 + 1)%nat) by (destruct mode; split; reflexivity).
    split; [exact (proj1 Ms)|]. split; [exact (proj2 Ms)|]. split.
    - unfold c. destruct clip as [c'|]; [reflexivity|]. destruct (@mat_max_spec g) as [G1 (i & j & Gi & Gj & G2)]; [cbn [g mh]; lia|cbn [g mw]; lia|]. split.
      + intros a b Ha Hb. rewrite <- Eg. apply G1; assumption.
      + exists i, j. rewrite <- Eg. repeat split; assumption.
    - intros i j Hi Hj. unfold fftshift0. cbn [mat_at]. rewrite (proj1 Ms), unshift by exact Hi. rewrite <- Eg. destruct mode; cbn [s mat_at]; [apply shown_sym; discriminate|apply shown_sym; discriminate|apply shown_abs|congruence].
  Qed.
  Theorem C90_refused clip mode frame : norm_rfft2 K W modulus clip MOther = Raise ValueError /\
    ((mh frame = 0%nat \/ mw frame = 0%nat) -> mode <> MOther -> exists show, norm_rfft2 K W modulus clip mode = Ok show /\ show frame = Raise ValueError).
  Proof.
    split; [reflexivity|]. intros H M. exists (_clip_fft K W modulus clip mode). split; [destruct mode; [reflexivity..|congruence]|]. unfold _clip_fft, _rfft2.
    destruct (Nat.eqb_spec (mh frame) 0%nat), (Nat.eqb_spec (mw frame) 0%nat); try reflexivity. lia.
  Qed.
  (** Nothing outside of the interval from 0 to 1 is shown. *)
  Theorem C90_range mode c x y : shows mode c x (Fin y) -> fle 0 y /\ fle y 1.
  Proof.
    intros H. inversion H as [y' Hc L|Hc Hx|Hc Hx|]; subst.
    - destruct L; split; try assumption; try apply fle_refl; apply flt_le, flt_0_1.
    - split; [apply fle_refl|apply flt_le, flt_0_1].
    - split; [apply flt_le, flt_0_1|apply fle_refl].
  Qed.
  Lemma half_val : 1 / two + 1 / two = 1.
  Proof. pose proof (@flt_neq K _ _ two_pos) as N2. field. intros Q. apply N2. symmetry. exact Q. Qed.
  Lemma mul_le x y z : fle x y -> flt K 0 z = true -> fle (x / z) (y / z).
  Proof. apply fle_div. Qed.
  Lemma div_self c : c <> 0 -> c / c = 1.
  Proof. intros H. field. exact H. Qed.
  (** With the scale found by the function: the largest value is shown as 1.  The modulus is shown in
      proportion; real and imaginary parts are shown in proportion down to minus the scale, and as 0 below. *)
  Theorem C90_scale frame mode c x v : mode <> MOther -> (1 <= mh frame)%nat -> largest frame (without_mean frame mode) c -> (forall z, fle 0 (modulus z)) -> c <> 0 ->
    (exists i j, (i < mh frame)%nat /\ (j < Nat.div (mw frame) 2 + 1)%nat /\ x = without_mean frame mode i j) -> shows mode c x v ->
    flt K 0 c = true /\ (x = c -> v = Fin 1) /\
    (mode = MAbs -> v = Fin (x / c)) /\ (mode <> MAbs -> fle (- c) x -> v = Fin (x / (two * c) + 1 / two)) /\ (flt K x (- c) = true -> v = Fin 0).
  Proof.
    intros M Hh (L1 & _) Hm Hc (i & j & Hi & Hj & Ex) S.
    assert (C0 : flt K 0 c = true).
    { assert (fle 0 c) as H. { replace 0 with (without_mean frame mode 0%nat 0%nat) by reflexivity. apply L1; lia. } apply fle_cases in H. destruct H as [H|H]; [exact H|congruence]. }
    assert (Xc : fle x c) by (rewrite Ex; apply L1; assumption).
    assert (X0 : mode = MAbs -> fle 0 x). { intros ->. rewrite Ex. unfold without_mean, part_of. destruct (Nat.eqb i 0%nat), (Nat.eqb j 0%nat); try apply Hm. apply fle_refl. }
    pose proof two_pos as T0. assert (N2 : two <> 0) by (intros Q; apply (@flt_neq K _ _ T0); symmetry; exact Q).
    assert (C2 : flt K 0 (two * c) = true) by (apply flt_mul_pos; assumption). assert (N2c : two * c <> 0) by (intros Q; apply (@flt_neq K _ _ C2); symmetry; exact Q).
    assert (NC : fle (- c) 0). { apply flt_le. replace 0 with (- 0) by ring. rewrite <- flt_opp. exact C0. }
    inversion S as [y Hc' L E|Hz|Hz|Hz]; subst v; try congruence. set (z := match mode with MAbs => _ | _ => _ end) in L.
    assert (U : forall w y, limited w y -> (fle 0 w -> fle w 1 -> y = w) /\ (flt K w 0 = true -> y = 0)).
    { clear. intros w y [H1 H2|H|H]; split; intros; try reflexivity; unfold fle in *; try congruence. exfalso. pose proof (@flt_trans K _ _ _ H H0) as Q. pose proof (@flt_trans K _ _ _ (flt_0_1 K) Q) as R. rewrite flt_irrefl in R. discriminate. }
    destruct (U _ _ L) as [U1 U2].
    assert (Zr : mode <> MAbs -> z = x / (two * c) + 1 / two) by (intros N; unfold z; destruct mode; congruence || reflexivity).
    assert (E1 : c / (two * c) + 1 / two = 1) by (field; split; assumption).
    assert (Up : mode <> MAbs -> fle z 1).
    { intros N. rewrite (Zr N). apply (@fle_trans K _ (c / (two * c) + 1 / two)); [apply fle_add, mul_le; assumption|rewrite E1; apply fle_refl]. }
    split; [exact C0|]. split; [|split; [|split]].
    - intros ->. f_equal. destruct mode; try congruence.
      1,2: rewrite U1; rewrite (Zr ltac:(discriminate)), E1; [reflexivity|apply flt_le, flt_0_1|apply fle_refl].
      unfold z in *. rewrite div_self in * by exact Hc. rewrite U1; [reflexivity|apply flt_le, flt_0_1|apply fle_refl].
    - intros ->. unfold z in *. f_equal. apply U1; [|rewrite <- (div_self Hc); apply mul_le; assumption]. replace 0 with (0 / c) by (field; exact Hc). apply mul_le; [apply X0; reflexivity|exact C0].
    - intros N Hx. f_equal. rewrite <- (Zr N). apply U1; [|apply Up; exact N]. rewrite (Zr N). replace 0 with (- c / (two * c) + 1 / two) by (field; split; assumption). apply fle_add. apply mul_le; assumption.
    - intros Hx. f_equal. apply U2. destruct mode; try congruence.
      1,2: rewrite (Zr ltac:(discriminate)); apply flt_sub; replace (fsub K 0 (x / (two * c) + 1 / two)) with (fsub K (- c) x * finv K (two * c)) by (field; split; assumption); apply flt_mul_pos; [exact (proj1 (flt_sub K _ _) Hx)|apply flt_inv; exact C2].
      exfalso. specialize (X0 eq_refl). unfold fle in X0. pose proof (@flt_le_trans K _ _ _ Hx NC). congruence.
  Qed.
  (** The pixel of the mean intensity: in the middle row, black in the modulus and grey in the parts. *)
  Theorem C90_centre frame mode c v : mode <> MOther -> c <> 0 -> shows mode c (without_mean frame mode 0%nat 0%nat) v -> v = Fin (match mode with MAbs => 0 | _ => 1 / two end).
  Proof.
    intros M Hc S. pose proof two_pos as T0. assert (N2 : two <> 0) by (intros Q; apply (@flt_neq K _ _ T0); symmetry; exact Q). assert (N2c : two * c <> 0). { intros Q. apply Hc. replace c with (two * c / two) by (field; exact N2). rewrite Q. field. exact N2. }
    change (without_mean frame mode 0%nat 0%nat) with 0 in S. inversion S as [y Hc' L E|Hz|Hz|Hz]; subst v; try congruence. f_equal.
    assert (H1 : flt K 0 (1 / two) = true) by (replace (1 / two) with (finv K two) by (field; exact N2); apply flt_inv; exact T0).
    assert (H2 : flt K (1 / two) 1 = true). { apply flt_sub. replace (fsub K 1 (1 / two)) with (1 / two) by (field; exact N2). exact H1. }
    assert (Q : match mode with MAbs => 0 / c | _ => 0 / (two * c) + 1 / two end = match mode with MAbs => 0 | _ => 1 / two end) by (destruct mode; field; try split; assumption).
    rewrite Q in L. destruct L as [_ _|B|A]; [reflexivity| |]; exfalso; destruct mode; unfold fle in *; try congruence.
    all: try (rewrite flt_irrefl in *; discriminate).
    all: try (pose proof (@flt_trans K _ _ _ B H1) as R; rewrite flt_irrefl in R; discriminate).
    all: try (pose proof (@flt_trans K _ _ _ A H2) as R; rewrite flt_irrefl in R; discriminate).
    pose proof (@flt_trans K _ _ _ A (flt_0_1 K)) as R. rewrite flt_irrefl in R. discriminate.
  Qed.
  (** If nothing but the mean intensity is there, nothing but NaN is shown. *)
  Theorem C90_flat_refuted frame mode c : largest frame (without_mean frame mode) c -> (forall i j, (i < mh frame)%nat -> (j < Nat.div (mw frame) 2 + 1)%nat -> without_mean frame mode i j = 0) ->
    forall i j v, (i < mh frame)%nat -> (j < Nat.div (mw frame) 2 + 1)%nat -> shows mode c (without_mean frame mode i j) v -> v = NonFin.
  Proof.
    intros (_ & a & b & Ha & Hb & E) Z i j v Hi Hj S. rewrite Z in E, S by assumption. subst c. inversion S as [y Hc L|Hc Hx|Hc Hx|]; subst; try reflexivity; try congruence; rewrite flt_irrefl in Hx; discriminate.
  Qed.
End Shown.
Print Assumptions C90_shown.
Print Assumptions C90_refused.
Print Assumptions C90_range.
Print Assumptions C90_scale.
Print Assumptions C90_centre.
Print Assumptions C90_flat_refuted.
(** The frame 1 2 / 3 5 with spectrum 11 -3 / -5 1 *)
Definition W2 (n : nat) : Cx QcF := match n with 2%nat => (q (-1), q 0) | _ => (q 1, q 0) end.
Definition fr22 : mat QcF := Mat 2 2 (fun i j => nth j (nth i [[q 1; q 2]; [q 3; q 5]] []) (q 0)).
Definition seen (clip : option QcO) (mode : fft_mode) : option (list (list (option (Z * Z)))) :=
  match norm_rfft2 QcO W2 (fun z => if flt QcO (cre z) (q 0) then fopp QcF (cre z) else cre z) clip mode with
  | Ok show_ => match show_ fr22 with Ok x => Some (map (fun i => map (fun j => match mat_at x i j with Fin y => Some (show y) | NonFin => None end) (seq 0 (mw x))) (seq 0 (mh x))) | Raise _ => None end
  | Raise _ => None
  end.
Example C90_holds : seen None MReal = Some [[Some (0, 1); Some (1, 1)]; [Some (1, 2); Some (0, 1)]]%Z /\ seen None MAbs = Some [[Some (1, 1); Some (1, 5)]; [Some (0, 1); Some (3, 5)]]%Z /\
  seen None MImag = Some [[None; None]; [None; None]] /\ seen (Some (q 2)) MReal = Some [[Some (0, 1); Some (3, 4)]; [Some (1, 2); Some (0, 1)]]%Z /\ seen (Some (q 2)) MOther = None.
Proof. repeat split; vm_compute; reflexivity. Qed.
