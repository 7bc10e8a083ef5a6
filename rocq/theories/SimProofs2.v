(** Proofs about the model of _sim_nb.py: mirror, the walk, the ADC, drawing. *)
From Coq Require Import ZifyBool ZifyNat.
From Verif Require Import Base KernelProofs Ordered SimModel SimProofs.
Set Implicit Arguments.

(** Every element is exceeded by a natural number *)
Definition archimedean (K : OFld) : Prop := forall x : K, exists n, flt K x (fnat K n) = true.

Section Mirror.
  Variable K : OFld.
  Add Field Ksim : (flaw K).
  Local Notation "x + y" := (fadd K x y).
  Local Notation "x - y" := (fsub K x y).
  Local Notation "x * y" := (fmul K x y).
  Implicit Types x y : K.
  (** x0 <= y < x1 *)
  Definition inside x0 x1 y : Prop := fle x0 y /\ flt K y x1 = true.
  (** y and x differ by a multiple of w *)
  Definition congruent w x y : Prop := exists n : nat, y = x + fnat K n * w \/ x = y + fnat K n * w.
  Lemma fle_not x y : fle x y <-> flt K y x = false.
  Proof. reflexivity. Qed.
  Lemma feqb_false x0 x1 : flt K x0 x1 = true -> feqb K x0 x1 = false.
  Proof. intros H. unfold feqb. rewrite H. reflexivity. Qed.
  Lemma mirror_up x0 x1 : flt K x0 x1 = true -> forall n x, fle x0 x -> flt K x (x1 + fnat K n * (x1 - x0)) = true ->
    exists k y, (k <= n)%nat /\ x = y + fnat K k * (x1 - x0) /\ inside x0 x1 y /\ forall fuel, (n < fuel)%nat -> mirror_loop K fuel x x0 x1 = Some y.
  Proof.
    intros H. induction n as [|n IH]; intros x Hx Hn.
    - exists 0%nat, x. split; [lia|]. split; [change (x = x + f0 K * (x1 - x0)); ring|]. assert (X : flt K x x1 = true) by (replace x1 with (x1 + f0 K * (x1 - x0)) by ring; exact Hn). split; [split; assumption|].
      intros [|fuel] Hf; [lia|]. cbn [mirror_loop]. unfold fle in Hx. rewrite Hx, X. reflexivity.
    - destruct (flt K x x1) eqn:E.
      + exists 0%nat, x. split; [lia|]. split; [change (x = x + f0 K * (x1 - x0)); ring|]. split; [split; assumption|]. intros [|fuel] Hf; [lia|]. cbn [mirror_loop]. unfold fle in Hx. rewrite Hx, E. reflexivity.
      + destruct (IH (x0 + x - x1)) as (k & y & Hk & Ey & Hi & Hf).
        * change (fle x1 x) in E. rewrite fle_sub. replace (x0 + x - x1 - x0) with (x - x1) by ring. rewrite <- fle_sub. exact E.
        * rewrite fnat_S in Hn. rewrite flt_sub in Hn |- *. match type of Hn with flt K _ ?a = true => match goal with |- flt K _ ?b = true => replace b with a by ring end end. exact Hn.
        * exists (S k), y. split; [lia|]. split; [rewrite fnat_S; replace x with (x0 + x - x1 + (x1 - x0)) at 1 by ring; rewrite Ey; ring|]. split; [exact Hi|].
          intros [|fuel] Hfu; [lia|]. cbn [mirror_loop]. unfold fle in Hx. rewrite Hx, E. cbn [negb]. apply Hf. lia.
  Qed.
  Lemma mirror_down x0 x1 : flt K x0 x1 = true -> forall n x, flt K x x0 = true -> fle x0 (x + fnat K n * (x1 - x0)) ->
    exists k y, y = x + fnat K k * (x1 - x0) /\ inside x0 x1 y /\ forall fuel, (n < fuel)%nat -> mirror_loop K fuel x x0 x1 = Some y.
  Proof.
    intros H. induction n as [|n IH]; intros x Hx Hn.
    - exfalso. assert (X : fle x0 x) by (replace x with (x + f0 K * (x1 - x0)) by ring; exact Hn). unfold fle in X. congruence.
    - destruct (flt K (x1 + x - x0) x0) eqn:E.
      + destruct (IH (x1 + x - x0) E) as (k & y & Ey & Hi & Hf).
        * rewrite fnat_S in Hn. match type of Hn with fle _ ?a => match goal with |- fle _ ?b => replace b with a by ring end end. exact Hn.
        * exists (S k), y. split; [rewrite fnat_S, Ey; ring|]. split; [exact Hi|]. intros [|fuel] Hfu; [lia|]. cbn [mirror_loop]. rewrite Hx. apply Hf. lia.
      + exists 1%nat, (x1 + x - x0). split; [change (fnat K 1) with (f1 K + f0 K); ring|]. assert (X : flt K (x1 + x - x0) x1 = true). { rewrite flt_sub in Hx |- *. replace (x1 - (x1 + x - x0)) with (x0 - x) by ring. exact Hx. }
        split; [split; assumption|]. intros [|fuel] Hfu; [lia|]. cbn [mirror_loop]. rewrite Hx. destruct fuel as [|fuel]; [lia|]. cbn [mirror_loop]. rewrite E, X. reflexivity.
  Qed.
  Lemma mirror_ends x0 x1 x : archimedean K -> flt K x0 x1 = true -> exists y n, inside x0 x1 y /\ congruent (x1 - x0) x y /\ forall fuel, (n < fuel)%nat -> mirror K fuel x x0 x1 = Some y.
  Proof.
    intros A H. assert (W : flt K (f0 K) (x1 - x0) = true) by (rewrite <- flt_sub; exact H). assert (WN : x1 - x0 <> f0 K) by (intros E; rewrite E, flt_irrefl in W; discriminate).
    assert (D : forall z n, flt K (fdiv K z (x1 - x0)) (fnat K n) = true -> flt K z (fnat K n * (x1 - x0)) = true).
    { intros z n Hz. replace z with (fdiv K z (x1 - x0) * (x1 - x0)) by (field; exact WN). apply flt_mul; assumption. }
    unfold mirror. rewrite feqb_false by exact H. destruct (flt K x x0) eqn:E.
    - destruct (A (fdiv K (x0 - x) (x1 - x0))) as (n & Hn). apply D in Hn. destruct (@mirror_down x0 x1 H n x E) as (k & y & Ey & Hi & Hf).
      + apply flt_le. rewrite flt_sub in Hn |- *. match type of Hn with flt K _ ?a = true => match goal with |- flt K _ ?b = true => replace b with a by ring end end. exact Hn.
      + exists y, n. split; [exact Hi|]. split; [exists k; left; exact Ey|exact Hf].
    - destruct (A (fdiv K (x - x1) (x1 - x0))) as (n & Hn). apply D in Hn. destruct (@mirror_up x0 x1 H n x E) as (k & y & _ & Ey & Hi & Hf).
      + rewrite flt_sub in Hn |- *. match type of Hn with flt K _ ?a = true => match goal with |- flt K _ ?b = true => replace b with a by ring end end. exact Hn.
      + exists y, n. split; [exact Hi|]. split; [exists k; right; exact Ey|exact Hf].
  Qed.
  Lemma mirror_inside fuel x0 x1 x : inside x0 x1 x -> mirror K (S fuel) x x0 x1 = Some x.
  Proof. intros [H1 H2]. unfold mirror, fle in *. rewrite feqb_false; [|eapply fle_lt_trans; [exact H1|exact H2]]. cbn [mirror_loop]. rewrite H1, H2. reflexivity. Qed.
  Lemma fnat_add' a b : fnat K (a + b) = fnat K a + fnat K b.
  Proof. induction a as [|a IH]; [change (fnat K b = f0 K + fnat K b); ring|]. change (S a + b)%nat with (S (a + b)). rewrite !fnat_S, IH. ring. Qed.
  Lemma inside_unique x0 x1 y y' n : inside x0 x1 y -> inside x0 x1 y' -> y' = y + fnat K n * (x1 - x0) -> y' = y.
  Proof.
    intros [A B] [A' B'] E. destruct n as [|n]; [rewrite E; change (y + f0 K * (x1 - x0) = y); ring|exfalso].
    assert (W : flt K (f0 K) (x1 - x0) = true) by (rewrite <- flt_sub; eapply fle_lt_trans; eassumption).
    assert (X : fle x1 y'). { rewrite E, fnat_S. rewrite fle_sub. replace (y + (f1 K + fnat K n) * (x1 - x0) - x1) with ((y - x0) + fnat K n * (x1 - x0)) by ring. replace (f0 K) with (f0 K + f0 K) by ring.
      apply fle_add2; [rewrite <- fle_sub; exact A|]. apply fle_mul_pos; [destruct n; [apply fle_refl|apply flt_le, flt_fnat; lia]|apply flt_le; exact W]. }
    unfold fle in X. congruence.
  Qed.
  Lemma congruent_unique x0 x1 x y y' : inside x0 x1 y -> inside x0 x1 y' -> congruent (x1 - x0) x y -> congruent (x1 - x0) x y' -> y' = y.
  Proof.
    intros H H' (n & C) (m & C').
    assert (G : forall p q : nat, forall z, y = z + fnat K p * (x1 - x0) -> y' = z + fnat K q * (x1 - x0) -> y' = y).
    { intros p q z E E'. destruct (Nat.le_gt_cases p q) as [L|L].
      - apply (@inside_unique x0 x1 y y' (q - p) H H'). rewrite E, E'. replace q with (p + (q - p))%nat at 1 by lia. rewrite fnat_add'. ring.
      - symmetry. apply (@inside_unique x0 x1 y' y (p - q) H' H). rewrite E, E'. replace p with (q + (p - q))%nat at 1 by lia. rewrite fnat_add'. ring. }
    destruct C as [C|C], C' as [C'|C'].
    - apply (G n m x C C').
    - symmetry. apply (@inside_unique x0 x1 y' y (n + m) H' H). rewrite C, C', fnat_add'. ring.
    - apply (@inside_unique x0 x1 y y' (m + n) H H'). rewrite C', C, fnat_add'. ring.
    - apply (G m n (y - fnat K m * (x1 - x0))); [ring|]. transitivity (x - fnat K m * (x1 - x0)); [rewrite C'; ring|]. rewrite C. ring. 
  Qed.
  Lemma mirror_reversed fuel x0 x1 : flt K x1 x0 = true -> forall x, mirror_loop K fuel x x0 x1 = None.
  Proof.
    intros H. assert (D : forall f x, flt K x x0 = true -> mirror_loop K f x x0 x1 = None).
    { induction f as [|f IH]; intros x Hx; [reflexivity|]. cbn [mirror_loop]. rewrite Hx. apply IH. eapply flt_trans; [|exact Hx]. rewrite flt_sub in H |- *. replace (x - (x1 + x - x0)) with (x0 - x1) by ring. exact H. }
    assert (U : forall f x, fle x0 x -> mirror_loop K f x x0 x1 = None).
    { induction f as [|f IH]; intros x Hx; [reflexivity|]. cbn [mirror_loop]. assert (E : flt K x x1 = false) by (apply flt_asym; eapply flt_le_trans; eassumption). unfold fle in Hx. rewrite Hx, E. cbn [negb]. apply IH.
      eapply fle_trans; [exact Hx|]. apply flt_le. rewrite flt_sub in H |- *. replace (x0 + x - x1 - x) with (x0 - x1) by ring. exact H. }
    intros x. destruct (flt K x x0) eqn:E; [apply D; exact E|apply U; exact E].
  Qed.

  (** * The walk *)
  Definition in_box (shape : K * K) (p : point K) : Prop := inside (f0 K) (fst shape) (fst p) /\ inside (f0 K) (snd shape) (snd p).
  Definition same_point (shape : K * K) (p q : point K) : Prop := congruent (fst shape) (fst p) (fst q) /\ congruent (snd shape) (snd p) (snd q).
  Lemma mirror_point_ends shape p : archimedean K -> flt K (f0 K) (fst shape) = true -> flt K (f0 K) (snd shape) = true ->
    exists q n, in_box shape q /\ same_point shape p q /\ forall fuel, (n < fuel)%nat -> mirror_point fuel shape p = Some q.
  Proof.
    intros A H1 H2. destruct (@mirror_ends (f0 K) (fst shape) (fst p) A H1) as (a & n & I1 & C1 & F1). destruct (@mirror_ends (f0 K) (snd shape) (snd p) A H2) as (b & m & I2 & C2 & F2).
    exists (a, b), (n + m)%nat. split; [split; assumption|]. split.
    - split; [replace (fst shape) with (fst shape - f0 K) by ring; exact C1|replace (snd shape) with (snd shape - f0 K) by ring; exact C2].
    - intros fuel Hf. unfold mirror_point. rewrite F1, F2 by lia. reflexivity.
  Qed.
  Lemma mirror_points_ends shape (x : list (point K)) : archimedean K -> flt K (f0 K) (fst shape) = true -> flt K (f0 K) (snd shape) = true ->
    exists (y : list (point K)) n, Forall (in_box shape) y /\ Forall2 (same_point shape) x y /\ forall fuel, (n < fuel)%nat -> mirror_points fuel shape x = Some y.
  Proof.
    intros A H1 H2. induction x as [|p x (y & n & B & C & F)]; [exists [], 0%nat; repeat constructor|]. destruct (@mirror_point_ends shape p A H1 H2) as (q & m & B' & C' & F').
    exists (q :: y), (n + m)%nat. split; [constructor; assumption|]. split; [constructor; assumption|]. intros fuel Hf. cbn [mirror_points]. rewrite F, F' by lia. reflexivity.
  Qed.
  Lemma mirror_points_inside fuel shape (x : list (point K)) : Forall (in_box shape) x -> mirror_points (S fuel) shape x = Some x.
  Proof.
    induction 1 as [|p x [H1 H2] _ IH]; [reflexivity|]. cbn [mirror_points]. rewrite IH. unfold mirror_point. rewrite !mirror_inside by assumption. destruct p. reflexivity.
  Qed.
  (** The positions, given those reached after each step *)
  Fixpoint is_walk (shape : K * K) (step : nat -> list (point K) -> list (point K)) (i : nat) (l : list (list (point K))) : Prop :=
    match l with
    | x :: ((y :: _) as l') => Forall2 (same_point shape) (step i x) y /\ is_walk shape step (S i) l'
    | _ => True
    end.
  Lemma walk_ends shape step count : archimedean K -> flt K (f0 K) (fst shape) = true -> flt K (f0 K) (snd shape) = true -> forall i (x : list (point K)), Forall (in_box shape) x ->
    exists l n, length l = count /\ Forall (Forall (in_box shape)) l /\ is_walk shape step i l /\ (count <> 0%nat -> exists l', l = x :: l') /\ forall fuel, (n < fuel)%nat -> walk_loop fuel shape step i count x = Some l.
  Proof.
    intros A H1 H2. induction count as [|count IH]; intros i x Hx.
    - exists [], 0%nat. repeat split; try constructor. intros []; reflexivity.
    - destruct (@mirror_points_ends shape (step i x) A H1 H2) as (y & m & B & C & F). destruct (IH (S i) y B) as (l & n & L & BL & W & E & FL). exists (x :: l), (n + m)%nat. split; [cbn; lia|]. split; [constructor; assumption|]. split.
      + destruct l as [|z l]; [exact I|]. split; [|exact W]. destruct E as (l' & E'); [cbn in L; lia|]. injection E' as -> _. exact C.
      + split; [intros _; eexists; reflexivity|]. intros fuel Hf. cbn [walk_loop]. rewrite F, FL by lia. reflexivity.
  Qed.
  (** * coordinate_transform *)
  Lemma two_neq0 : fnat K 2 <> f0 K.
  Proof. apply fnat_neq0. lia. Qed.
  Lemma transform_none shape (a b : K) : transform shape None None (a, b) = (a, b).
  Proof. unfold transform, padd, psub, rotate. cbn [fst snd]. f_equal; ring. Qed.
  Lemma transform_center shape (offset : point K) r : transform shape (Some offset) r (frame_center K shape) = padd (frame_center K shape) offset.
  Proof. unfold transform, padd, psub. cbn [fst snd]. f_equal; ring. Qed.
  Lemma transform_distance shape (offset : point K) c s p : c * c + s * s = f1 K ->
    let T := transform shape (Some offset) (Some (c, s)) in
    let sq (u v : point K) := (fst u - fst v) * (fst u - fst v) + (snd u - snd v) * (snd u - snd v) in
    sq (T p) (T (frame_center K shape)) = sq p (frame_center K shape).
  Proof.
    intros H. cbv zeta. unfold transform, padd, psub, rotate. cbn [fst snd]. set (u := fst p). set (v := snd p). set (a := fst (frame_center K shape)). set (b := snd (frame_center K shape)).
    transitivity ((c * c + s * s) * ((u - a) * (u - a) + (v - b) * (v - b))); [ring|]. rewrite H. ring.
  Qed.
End Mirror.

(** * The ADC *)
Section ADC.
  Variable K : OFld.
  Variable trunc : K -> nat.
  (** Rounding of non-negative values towards zero *)
  Definition truncates : Prop := forall x, fle (f0 K) x -> fle (fnat K (trunc x)) x /\ flt K x (fnat K (S (trunc x))) = true.
  Hypothesis HT : truncates.
  Add Field Kadc : (flaw K).
  Local Notation "x - y" := (fsub K x y).
  Local Notation "x * y" := (fmul K x y).
  Lemma fnat_le a b : (a <= b)%nat -> fle (fnat K a) (fnat K b).
  Proof.
    induction 1 as [|b _ IH]; [apply fle_refl|]. eapply fle_trans; [exact IH|]. rewrite fnat_S. apply flt_le. replace (fnat K b) with (fadd K (f0 K) (fnat K b)) at 1 by ring. apply flt_add, flt_0_1.
  Qed.
  Lemma fnat_lt_inv a b : flt K (fnat K a) (fnat K b) = true -> (a < b)%nat.
  Proof. intros H. destruct (Nat.lt_ge_cases a b) as [C|C]; [exact C|]. apply fnat_le in C. unfold fle in C. congruence. Qed.
  Lemma trunc_mono x y : fle (f0 K) x -> fle x y -> (trunc x <= trunc y)%nat.
  Proof.
    intros H0 H. destruct (HT H0) as [A _]. destruct (HT (fle_trans H0 H)) as [_ B]. assert (L : flt K (fnat K (trunc x)) (fnat K (S (trunc y))) = true) by (eapply fle_lt_trans; [exact A|]; eapply fle_lt_trans; eassumption). apply fnat_lt_inv in L. lia.
  Qed.
  Lemma trunc_fnat n : trunc (fnat K n) = n.
  Proof.
    assert (H : fle (f0 K) (fnat K n)) by (apply (@fnat_le 0 n); lia). destruct (HT H) as [A B]. apply fnat_lt_inv in B. destruct (Nat.lt_ge_cases n (trunc (fnat K n))) as [C|C]; [|lia].
    exfalso. assert (D : fle (fnat K (S n)) (fnat K n)) by (eapply fle_trans; [apply fnat_le; exact C|exact A]). rewrite fnat_S in D. unfold fle in D. replace (fnat K n) with (fadd K (f0 K) (fnat K n)) in D at 1 by ring. rewrite flt_add in D; [discriminate|apply flt_0_1].
  Qed.
  Lemma trunc_le x n : fle (f0 K) x -> fle x (fnat K n) -> (trunc x <= n)%nat.
  Proof. intros H0 H. rewrite <- (trunc_fnat n). apply trunc_mono; assumption. Qed.
  (** The value before rounding *)
  Definition level (frame saturation black_level : K) (m : nat) : K := fdiv K (frame - black_level) saturation * fnat K m.
  Lemma ratio_mono x y s b : flt K (f0 K) s = true -> fle x y -> fle (fdiv K (x - b) s) (fdiv K (y - b) s).
  Proof. intros Hs H. apply fle_div; [|exact Hs]. rewrite fle_sub in H |- *. replace (y - b - (x - b)) with (y - x) by ring. exact H. Qed.
  Lemma level_mono x y s b m : flt K (f0 K) s = true -> fle x y -> fle (level x s b m) (level y s b m).
  Proof.
    intros Hs H. unfold level. replace (fdiv K (x - b) s * fnat K m) with (fnat K m * fdiv K (x - b) s) by ring. replace (fdiv K (y - b) s * fnat K m) with (fnat K m * fdiv K (y - b) s) by ring.
    apply fle_mul; [apply ratio_mono; assumption|]. apply (@fnat_le 0 m). lia.
  Qed.
  Lemma level_black s b m : flt K (f0 K) s = true -> level b s b m = f0 K.
  Proof. intros Hs. unfold level. field. intros E. rewrite E, flt_irrefl in Hs. discriminate. Qed.
  Lemma level_sat s b m : flt K (f0 K) s = true -> level (fadd K s b) s b m = fnat K m.
  Proof. intros Hs. unfold level. field. intros E. rewrite E, flt_irrefl in Hs. discriminate. Qed.
  Lemma ratio_black s b : flt K (f0 K) s = true -> fdiv K (b - b) s = f0 K.
  Proof. intros Hs. field. intros E. rewrite E, flt_irrefl in Hs. discriminate. Qed.
  Lemma ratio_sat s b : flt K (f0 K) s = true -> fdiv K (fadd K s b - b) s = f1 K.
  Proof. intros Hs. field. intros E. rewrite E, flt_irrefl in Hs. discriminate. Qed.
  Definition clip (m : nat) (out : K) : nat := if flt K out (f0 K) then 0%nat else if flt K (fnat K m) out then m else trunc out.
  Lemma clip_bound m out : (clip m out <= m)%nat.
  Proof. unfold clip. destruct (flt K out (f0 K)) eqn:E; [lia|]. destruct (flt K (fnat K m) out) eqn:E'; [lia|]. apply trunc_le; assumption. Qed.
  Lemma clip_mono m x y : fle x y -> (clip m x <= clip m y)%nat.
  Proof.
    intros H. unfold clip at 1. destruct (flt K x (f0 K)) eqn:E; [lia|]. destruct (flt K (fnat K m) x) eqn:E'.
    - unfold clip. assert (Y : flt K (fnat K m) y = true) by (eapply flt_le_trans; eassumption). rewrite Y. destruct (flt K y (f0 K)) eqn:E2; [|lia]. exfalso. change (fle (f0 K) x) in E. pose proof (fle_trans E H) as X. unfold fle in X. congruence.
    - unfold clip. destruct (flt K y (f0 K)) eqn:E2; [exfalso; change (fle (f0 K) x) in E; pose proof (fle_trans E H) as X; unfold fle in X; congruence|]. destruct (flt K (fnat K m) y) eqn:E3; [apply trunc_le; assumption|]. apply trunc_mono; assumption.
  Qed.
  Lemma clip_low m x : fle x (f0 K) -> clip m x = 0%nat.
  Proof. intros H. assert (C : clip m (f0 K) = 0%nat). { unfold clip. rewrite flt_irrefl. assert (X : fle (f0 K) (fnat K m)) by (apply (@fnat_le 0 m); lia). unfold fle in X. rewrite X. apply (trunc_fnat 0). } pose proof (@clip_mono m _ _ H). lia. Qed.
  Lemma clip_high m x : fle (fnat K m) x -> clip m x = m.
  Proof.
    intros H. assert (C : clip m (fnat K m) = m). { unfold clip. assert (X : fle (f0 K) (fnat K m)) by (apply (@fnat_le 0 m); lia). unfold fle in X. rewrite X, flt_irrefl. apply trunc_fnat. } pose proof (@clip_mono m _ _ H). pose proof (clip_bound m x). lia.
  Qed.
  (** adc_8bit .. adc_16bit *)
  Definition scale_to (bits : nat) (out : K) : nat := if flt K out (f1 K) then trunc ((if flt K out (f0 K) then f0 K else out) * fnat K (2 ^ bits)) else (2 ^ bits - 1)%nat.
  Lemma adc_bits_scale bits frame s b : adc_bits K trunc bits frame s b = scale_to bits (fdiv K (frame - b) s).
  Proof.
    unfold adc_bits, _adc_scale, scale_to. destruct (flt K (fdiv K (frame - b) s) (f0 K)) eqn:E; [|reflexivity]. rewrite flt_0_1. rewrite (flt_trans K _ _ _ E (flt_0_1 K)). reflexivity.
  Qed.
  Lemma pow2_pos' b : (1 <= 2 ^ b)%nat.
  Proof. clear. induction b; cbn; lia. Qed.
  Lemma trunc_below x n : fle (f0 K) x -> flt K x (fnat K n) = true -> (trunc x < n)%nat.
  Proof. intros H0 H. apply fnat_lt_inv. eapply fle_lt_trans; [apply (HT H0)|exact H]. Qed.
  Lemma scale_bound bits x : (scale_to bits x <= 2 ^ bits - 1)%nat.
  Proof.
    unfold scale_to. destruct (flt K x (f1 K)) eqn:E; [|lia]. pose proof (pow2_pos' bits). assert (P : flt K (f0 K) (fnat K (2 ^ bits)) = true) by (apply flt_fnat; lia). assert (L : fle (f0 K) (fnat K (2 ^ bits))) by (apply flt_le; exact P).
    assert (X : (trunc (fmul K (if flt K x (f0 K) then f0 K else x) (fnat K (2 ^ bits))) < 2 ^ bits)%nat); [|lia]. destruct (flt K x (f0 K)) eqn:E0.
    - replace (f0 K * fnat K (2 ^ bits)) with (fnat K 0) by (change (fnat K 0) with (f0 K); ring). rewrite trunc_fnat. lia.
    - apply trunc_below; [apply fle_mul_pos; assumption|]. replace (fnat K (2 ^ bits)) with (f1 K * fnat K (2 ^ bits)) at 2 by ring. apply flt_mul; assumption.
  Qed.
  Lemma scale_mono bits x y : fle x y -> (scale_to bits x <= scale_to bits y)%nat.
  Proof.
    intros H. unfold scale_to at 2. destruct (flt K y (f1 K)) eqn:E; [|apply scale_bound]. unfold scale_to. rewrite (@fle_lt_trans K _ _ _ H E). pose proof (pow2_pos' bits). assert (L : fle (f0 K) (fnat K (2 ^ bits))) by (apply (@fnat_le 0); lia).
    destruct (flt K x (f0 K)) eqn:Ex.
    - destruct (flt K y (f0 K)) eqn:Ey; [lia|]. apply trunc_mono; [apply fle_mul_pos; [apply fle_refl|exact L]|]. replace (f0 K * fnat K (2 ^ bits)) with (f0 K) by ring. apply fle_mul_pos; assumption.
    - change (fle (f0 K) x) in Ex. pose proof (fle_trans Ex H) as Ey. unfold fle in Ey. rewrite Ey. apply trunc_mono; [apply fle_mul_pos; assumption|]. replace (x * fnat K (2 ^ bits)) with (fnat K (2 ^ bits) * x) by ring. replace (y * fnat K (2 ^ bits)) with (fnat K (2 ^ bits) * y) by ring. apply fle_mul; assumption.
  Qed.
  Lemma scale_low bits x : fle x (f0 K) -> scale_to bits x = 0%nat.
  Proof.
    intros H. assert (C : scale_to bits (f0 K) = 0%nat). { unfold scale_to. rewrite flt_0_1, flt_irrefl. replace (f0 K * fnat K (2 ^ bits)) with (fnat K 0) by (change (fnat K 0) with (f0 K); ring). apply trunc_fnat. } pose proof (@scale_mono bits _ _ H). lia.
  Qed.
  Lemma scale_high bits x : fle (f1 K) x -> scale_to bits x = (2 ^ bits - 1)%nat.
  Proof. intros H. unfold scale_to. unfold fle in H. rewrite H. reflexivity. Qed.
  (** Both conversions differ by at most one *)
  Lemma clip_scale bits x : (clip (2 ^ bits - 1) (fmul K x (fnat K (2 ^ bits - 1))) <= scale_to bits x <= clip (2 ^ bits - 1) (fmul K x (fnat K (2 ^ bits - 1))) + 1)%nat.
  Proof.
    pose proof (pow2_pos' bits) as P. assert (L1 : fle (f0 K) (fnat K (2 ^ bits - 1))) by (apply (@fnat_le 0); lia). assert (L2 : fle (f0 K) (fnat K (2 ^ bits))) by (apply (@fnat_le 0); lia).
    destruct (flt K x (f1 K)) eqn:E.
    - destruct (flt K x (f0 K)) eqn:E0.
      + assert (X : fle x (f0 K)) by (apply flt_le; exact E0). rewrite (@scale_low bits x X), clip_low; [lia|]. replace (f0 K) with (fnat K (2 ^ bits - 1) * f0 K) by ring. replace (x * fnat K (2 ^ bits - 1)) with (fnat K (2 ^ bits - 1) * x) by ring. apply fle_mul; assumption.
      + unfold scale_to. rewrite E, E0. change (fle (f0 K) x) in E0. set (a := x * fnat K (2 ^ bits - 1)). assert (Ha : fle (f0 K) a) by (apply fle_mul_pos; assumption).
        assert (EA : x * fnat K (2 ^ bits) = fadd K x a). { unfold a. replace (2 ^ bits)%nat with (S (2 ^ bits - 1)) at 1 by lia. rewrite fnat_S. ring. }
        assert (C : clip (2 ^ bits - 1) a = trunc a). { unfold clip. assert (H0 : flt K a (f0 K) = false) by exact Ha. rewrite H0. assert (H1 : flt K (fnat K (2 ^ bits - 1)) a = false); [|rewrite H1; reflexivity]. change (fle a (fnat K (2 ^ bits - 1))). unfold a. replace (fnat K (2 ^ bits - 1)) with (fnat K (2 ^ bits - 1) * f1 K) at 2 by ring. replace (x * fnat K (2 ^ bits - 1)) with (fnat K (2 ^ bits - 1) * x) by ring. apply fle_mul; [apply flt_le; exact E|exact L1]. }
        rewrite C, EA. assert (G : fle a (fadd K x a)) by (replace a with (fadd K (f0 K) a) at 1 by ring; apply fle_add; exact E0). split; [apply trunc_mono; assumption|].
        assert (X : (trunc (fadd K x a) < S (S (trunc a)))%nat); [|lia]. apply trunc_below; [eapply fle_trans; eassumption|]. rewrite fnat_S. eapply flt_le_trans; [apply flt_add; exact E|]. replace (fadd K (f1 K) a) with (fadd K a (f1 K)) by ring. replace (fadd K (f1 K) (fnat K (S (trunc a)))) with (fadd K (fnat K (S (trunc a))) (f1 K)) by ring. apply fle_add, flt_le. apply (HT Ha).
    - change (fle (f1 K) x) in E. rewrite (@scale_high bits x E), clip_high; [lia|]. replace (fnat K (2 ^ bits - 1)) with (fnat K (2 ^ bits - 1) * f1 K) at 1 by ring. replace (x * fnat K (2 ^ bits - 1)) with (fnat K (2 ^ bits - 1) * x) by ring. apply fle_mul; assumption.
  Qed.
End ADC.
