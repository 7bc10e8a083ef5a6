(** Proofs about brownian_walk and brownian_particles. *)
From Verif Require Import Base Ordered SimModel SimProofs2 WalkModel.
Set Implicit Arguments.
Local Open Scope nat_scope.

Lemma Forall2_length' (X Y : Type) (R : X -> Y -> Prop) l l' : Forall2 R l l' -> length l = length l'.
Proof. induction 1; cbn; congruence. Qed.
Lemma Forall2_nth' (X Y : Type) (R : X -> Y -> Prop) l l' dx dy i : Forall2 R l l' -> (i < length l)%nat -> R (nth i l dx) (nth i l' dy).
Proof. intros H. revert i. induction H; intros [|i] Hi; cbn in *; try lia; auto. apply IHForall2. lia. Qed.

Section Walk.
  Variable K : OFld.
  Variable fsqrt : K -> K.
  Add Field Kwalk : (flaw K).
  Local Notation "0" := (f0 K).
  Local Notation "x + y" := (fadd K x y).
  Local Notation "x - y" := (fsub K x y).
  Local Notation "x * y" := (fmul K x y).
  Local Notation pt := (point K).
  Implicit Types (x y w : K) (a : arr K).

  (** * Congruence modulo the box *)
  Lemma congruent_refl w x : congruent K w x x.
  Proof. exists O. left. change (fnat K 0%nat) with 0. ring. Qed.
  Lemma congruent_sym w x y : congruent K w x y -> congruent K w y x.
  Proof. intros (n & [H|H]); exists n; auto. Qed.
  Lemma congruent_add w x y z : congruent K w x y -> congruent K w (x + z) (y + z).
  Proof. intros (n & [->| ->]); exists n; [left|right]; ring. Qed.
  Lemma fnat_sub n m : (m <= n)%nat -> fnat K (n - m) = fnat K n - fnat K m.
  Proof. intros H. replace n with ((n - m) + m)%nat at 2 by lia. rewrite fnat_add'. ring. Qed.
  Lemma congruent_trans w x y z : congruent K w x y -> congruent K w y z -> congruent K w x z.
  Proof.
    intros (n & H1) (m & H2).
    assert (D : forall u v, fnat K n * w = u -> fnat K m * w = v -> (exists k, u - v = fnat K k * w \/ v - u = fnat K k * w)).
    { intros u v <- <-. destruct (Nat.le_ge_cases m n) as [H|H]; [exists (n - m)%nat; left|exists (m - n)%nat; right]; rewrite fnat_sub by exact H; ring. }
    destruct H1 as [H1|H1], H2 as [H2|H2].
    - exists (n + m)%nat. left. rewrite fnat_add', H2, H1. ring.
    - destruct (D _ _ eq_refl eq_refl) as (k & [E|E]); exists k; [left|right]; rewrite <- E.
      + transitivity ((z + fnat K m * w) - fnat K m * w); [ring|]. rewrite <- H2, H1. ring.
      + transitivity ((x + fnat K n * w) - fnat K n * w); [ring|]. rewrite <- H1, H2. ring.
    - destruct (D _ _ eq_refl eq_refl) as (k & [E|E]); exists k; [right|left]; rewrite <- E; rewrite H1, H2; ring.
    - exists (n + m)%nat. right. rewrite fnat_add', H1, H2. ring.
  Qed.

  (** * One step *)
  Definition fits (n : nat) a : Prop := arr_fits a = true /\ (arr_rows a = 1%nat \/ arr_rows a = n).
  Lemma bdim_fits n m : (m = 1 \/ m = n)%nat -> bdim n m = Ok n.
  Proof. unfold bdim. intros [->| ->]; [|rewrite Nat.eqb_refl; reflexivity]. destruct (Nat.eqb_spec n 1); reflexivity. Qed.
  Definition moved (normals : nat -> bool -> K) (x : list pt) (scale velocity : arr K) (i : nat) (c : bool) : K :=
    coord (nth i x (0, 0)) c + normals i c * arr_at scale i c + arr_at velocity i c.
  Lemma make_step_ok normals (x : list pt) scale velocity : fits (length x) scale -> fits (length x) velocity ->
    make_step normals x scale velocity = Ok (map (fun i => (moved normals x scale velocity i false, moved normals x scale velocity i true)) (seq 0 (length x))).
  Proof.
    intros [F1 R1] [F2 R2]. unfold make_step. rewrite F1, F2. cbn [andb negb]. rewrite (bdim_fits R1). cbn [bind]. rewrite (bdim_fits R2). cbn [bind]. f_equal.
    apply map_ext_in. intros i Hi. apply in_seq in Hi. unfold moved, arr_at at 1 4, row_of. destruct (Nat.eqb_spec (length x) 1) as [E|E]; [|reflexivity]. replace i with O by lia. reflexivity.
  Qed.
  Lemma fits_amul n a k : fits n a -> fits n (amul a k).
  Proof. intros [F R]. unfold fits. destruct a; cbn [amul arr_fits arr_rows] in *; rewrite ?map_length; split; assumption. Qed.
  Lemma arr_at_amul a k i c : (0 < arr_rows a)%nat -> arr_fits a = true -> arr_rows a = 1%nat \/ (i < arr_rows a)%nat -> arr_at (amul a k) i c = arr_at a i c * k.
  Proof.
    intros H0 HF HR. destruct a as [x|v|l|l]; cbn [amul arr_at arr_rows arr_fits] in *.
    - reflexivity.
    - rewrite map_length. destruct v as [|y [|z [|]]]; cbn in *; try discriminate; destruct c; reflexivity.
    - rewrite map_length. unfold row_of. set (j := if length l =? 1 then O else i). assert (j < length l)%nat by (unfold j; destruct (Nat.eqb_spec (length l) 1); lia).
      rewrite (nth_indep _ (0, 0) (0 * k, 0 * k)) by (rewrite map_length; exact H). etransitivity; [apply (f_equal (fun p : pt => coord p c)); exact (map_nth (fun p : pt => (fst p * k, snd p * k)) l (0, 0) j)|]. destruct c; reflexivity.
    - rewrite map_length. unfold row_of. set (j := if length l =? 1 then O else i). assert (j < length l)%nat by (unfold j; destruct (Nat.eqb_spec (length l) 1); lia).
      rewrite (nth_indep _ 0 (0 * k)) by (rewrite map_length; exact H). exact (map_nth (fun x => x * k) l 0 j).
  Qed.

  (** * The walk *)
  Section Loop.
    Variables (normals : nat -> nat -> bool -> K) (h w : K) (delta velocity : given_as K) (dt : K) (n : nat).
    Hypothesis A : archimedean K.
    Hypothesis Hh : flt K 0 h = true.
    Hypothesis Hw : flt K 0 w = true.
    Hypothesis Fs : forall x : list pt, length x = n -> fits n (scale_now fsqrt delta dt x).
    Hypothesis Fv : forall x : list pt, length x = n -> fits n (velocity_now velocity dt x).
    Definition next_at (i : nat) (x : list pt) (j : nat) (c : bool) : K := moved (normals i) x (scale_now fsqrt delta dt x) (velocity_now velocity dt x) j c.
    Lemma same_coord (p q : pt) c : same_point (h, w) p q -> congruent K (coord (h, w) c) (coord p c) (coord q c).
    Proof using. intros [H1 H2]. destruct c; assumption. Qed.
    Lemma walk_from_ok count : forall i (x : list pt), length x = n -> Forall (in_box (h, w)) x ->
      exists l m, (forall fuel, (m < fuel)%nat -> walk_from fsqrt fuel normals (h, w) delta velocity dt i count x = Some (l, None)) /\
        length l = count /\ Forall (fun y : list pt => length y = n /\ Forall (in_box (h, w)) y) l /\ ((0 < count)%nat -> nth 0 l [] = x) /\
        forall t j c, (S t < count)%nat -> (j < n)%nat ->
          congruent K (coord (h, w) c) (next_at (i + t) (nth t l []) j c) (coord (nth j (nth (S t) l []) (0, 0)) c).
    Proof.
      induction count as [|count IH]; intros i x Lx Bx.
      - exists [], O. repeat split; try constructor; try (cbn; lia).
      - pose proof (Fs x Lx) as F1. pose proof (Fv x Lx) as F2. rewrite <- Lx in F1, F2. pose proof (make_step_ok (normals i) x F1 F2) as E.
        set (x' := map _ _) in E. assert (Lx' : length x' = n) by (unfold x'; rewrite map_length, seq_length; exact Lx).
        destruct (@mirror_points_ends K (h, w) x' A Hh Hw) as (y & m & By & Cy & Fy). assert (Ly : length y = n) by (transitivity (length x'); [symmetry; exact (Forall2_length' Cy)|exact Lx']).
        destruct (IH (S i) y Ly By) as (l & m' & W & L & B & H0 & ST). exists (x :: l), (m + m')%nat. split; [|split; [|split; [|split]]].
        + intros fuel Hf. cbn [walk_from]. rewrite E, Fy, W by lia. reflexivity.
        + cbn. lia.
        + constructor; [split; assumption|exact B].
        + reflexivity.
        + intros [|t] j c Ht Hj.
          * cbn [nth]. rewrite H0 by lia. assert (Hj' : (j < length x')%nat) by lia. pose proof (Forall2_nth' (0, 0) (0, 0) Cy Hj') as S. apply (same_coord c) in S.
            replace (i + 0)%nat with i by lia. match goal with |- congruent K _ ?a _ => replace a with (coord (nth j x' (0, 0)) c); [exact S|] end.
            unfold x'. assert (Q : forall f : nat -> pt, nth j (map f (seq 0 (length x))) (0, 0) = f j).
            { intros f. rewrite (nth_indep _ (0, 0) (f O)) by (rewrite map_length, seq_length; lia). rewrite map_nth, seq_nth by lia. reflexivity. }
            rewrite Q. unfold next_at. destruct c; reflexivity.
          * cbn [nth]. replace (i + S t)%nat with (S i + t)%nat by lia. apply (ST t j c); lia.
    Qed.
  End Loop.
End Walk.
