(** Mean numbers of pairs of frames of two cameras in the random triggering schemes. *)
From Verif Require Import Base RandCountProofs.
Set Implicit Arguments.
Local Open Scope nat_scope.

(** * Sequences of independent outcomes *)
Section Seqs.
  Variable A : Type.
  Variable l : list A.
  Variable d : A.
  Fixpoint seqs (n : nat) : list (list A) := match n with O => [[]] | S n => flat_map (fun x => map (cons x) (seqs n)) l end.
  Lemma nsum_seqs n f : nsum (seqs (S n)) f = nsum l (fun x => nsum (seqs n) (fun s => f (x :: s))).
  Proof. cbn [seqs]. rewrite nsum_flat. apply nsum_ext. intros x _. apply nsum_map. Qed.
  Lemma seqs_length n : length (seqs n) = length l ^ n.
  Proof.
    assert (L : forall B (m : list B), length m = nsum m (fun _ => 1)) by (intros; rewrite nsum_const; lia).
    induction n as [|n IH]; [reflexivity|]. rewrite L, nsum_seqs. rewrite (nsum_ext _ _ (fun _ => length l ^ n)) by (intros x _; rewrite <- L; exact IH). rewrite nsum_const. reflexivity.
  Qed.
  Lemma seqs_in n s : In s (seqs n) <-> length s = n /\ forall x, In x s -> In x l.
  Proof.
    split.
    - revert s. induction n as [|n IH]; intros s; cbn [seqs]; [intros [<-|[]]; split; [reflexivity|intros x []]|].
      rewrite in_flat_map. intros (x & Hx & H). apply in_map_iff in H. destruct H as (s' & <- & H'). destruct (IH s' H') as [L B]. split; [cbn; lia|]. intros y [<-|Hy]; [exact Hx|exact (B y Hy)].
    - revert s. induction n as [|n IH]; intros [|x s] [L B]; try discriminate; [left; reflexivity|]. cbn [seqs]. apply in_flat_map. exists x. split; [apply B; left; reflexivity|].
      apply in_map. apply IH. split; [cbn in L; lia|]. intros y Hy. apply B. right. exact Hy.
  Qed.
  Lemma seqs_nodup n : NoDup l -> NoDup (seqs n).
  Proof.
    intros Hl. induction n as [|n IH]; [repeat constructor; intros []|]. cbn [seqs]. revert Hl. generalize l as m. induction m as [|x m IHm]; intros Hm; [constructor|]. cbn [flat_map]. inversion Hm; subst.
    assert (D : forall (l1 l2 : list (list A)), NoDup l1 -> NoDup l2 -> (forall x, In x l1 -> ~ In x l2) -> NoDup (l1 ++ l2)).
    { induction l1 as [|a l1 IH1]; intros l2 H1' H2' H3'; [exact H2'|]. inversion H1'; subst. cbn. constructor; [|apply IH1; auto; intros; apply H3'; right; assumption]. rewrite in_app_iff. intros [H|H]; [auto|]. apply (H3' a (or_introl eq_refl) H). }
    apply D; [|apply IHm; assumption|].
    - apply FinFun.Injective_map_NoDup; [intros a b E; congruence|exact IH].
    - intros y Hy Hz. apply in_map_iff in Hy. destruct Hy as (a & <- & _). apply in_flat_map in Hz. destruct Hz as (z & Hz & Hz'). apply in_map_iff in Hz'. destruct Hz' as (b & E & _). injection E as E _. subst. contradiction.
  Qed.
  (** One place, and two different places *)
  Lemma place n : forall i g, i < n -> length l * nsum (seqs n) (fun s => g (nth i s d)) = length l ^ n * nsum l g.
  Proof.
    induction n as [|n IH]; intros i g Hi; [lia|]. rewrite nsum_seqs. destruct i as [|i]; cbn [nth].
    - rewrite (nsum_ext _ _ (fun x => length l ^ n * g x)). { rewrite nsum_mul. cbn [Nat.pow]. lia. } intros x _. rewrite nsum_const, seqs_length. reflexivity.
    - rewrite nsum_const, (Nat.mul_comm (length l)), IH by lia. cbn [Nat.pow]. lia.
  Qed.
  Lemma places_lt n : forall i j g, i < j < n -> length l * length l * nsum (seqs n) (fun s => g (nth i s d) (nth j s d)) = length l ^ n * nsum l (fun a => nsum l (g a)).
  Proof.
    induction n as [|n IH]; intros i j g Hi; [lia|]. rewrite nsum_seqs. destruct j as [|j]; [lia|]. destruct i as [|i]; cbn [nth].
    - rewrite <- Nat.mul_assoc, <- nsum_mul. rewrite (nsum_ext _ _ (fun x => length l ^ n * nsum l (g x))) by (intros x _; apply place; lia). rewrite nsum_mul. cbn [Nat.pow]. lia.
    - rewrite nsum_const. cbn [Nat.pow]. specialize (IH i j g ltac:(lia)). nia.
  Qed.
  Lemma nsum_swap B C (lb : list B) (lc : list C) f : nsum lb (fun x => nsum lc (f x)) = nsum lc (fun y => nsum lb (fun x => f x y)).
  Proof. induction lb as [|x lb IH]; [symmetry; apply nsum_le1; intros; reflexivity|]. rewrite nsum_cons, IH, <- nsum_add. apply nsum_ext. intros y _. rewrite nsum_cons. reflexivity. Qed.
  Lemma places n i j g : i < n -> j < n -> i <> j -> length l * length l * nsum (seqs n) (fun s => g (nth i s d) (nth j s d)) = length l ^ n * nsum l (fun a => nsum l (g a)).
  Proof.
    intros Hi Hj Hn. destruct (Nat.lt_ge_cases i j) as [H|H]; [apply places_lt; lia|].
    rewrite (places_lt (i := j) (j := i) (fun b a => g a b)) by lia. rewrite (nsum_swap l l (fun b a => g a b)). reflexivity.
  Qed.
End Seqs.

(** Pairs (i, j) of frames at distance q *)
Lemma nsum_one (n i : nat) (f : nat -> nat) : i < n -> (forall j, j < n -> j <> i -> f j = 0) -> nsum (seq 0 n) f = f i.
Proof.
  intros Hi H. rewrite (nsum_ext _ _ (fun j => f i * (if (i <=? j) && (j <? S i) then 1 else 0))).
  - rewrite nsum_mul, nsum_range. replace (Nat.min (0 + n) (S i) - Nat.max 0 i) with 1 by lia. lia.
  - intros j Hj. apply in_seq in Hj. destruct (Nat.eq_dec j i) as [->|E]; [destruct (Nat.leb_spec i i), (Nat.ltb_spec i (S i)); cbn [andb]; lia|].
    rewrite H by lia. destruct (Nat.leb_spec i j), (Nat.ltb_spec j (S i)); cbn [andb]; lia.
Qed.
Lemma frames_at n (q : Z) : nsum (seq 0 n) (fun i => nsum (seq 0 n) (fun j => if (Z.of_nat j - Z.of_nat i =? q)%Z then 1 else 0)) = n - Z.abs_nat q.
Proof.
  rewrite (nsum_ext _ _ (fun i => if (Z.to_nat (- q) <=? i) && (i <? n - Z.to_nat q) then 1 else 0)).
  - rewrite nsum_range. lia.
  - intros i Hi. apply in_seq in Hi. rewrite (nsum_ext _ _ (fun j => if (Z.to_nat (Z.of_nat i + q) <=? j) && (j <? Z.to_nat (Z.of_nat i + q + 1)) then 1 else 0)).
    + rewrite nsum_range. destruct (Nat.leb_spec (Z.to_nat (- q)) i), (Nat.ltb_spec i (n - Z.to_nat q)); cbn [andb]; lia.
    + intros j Hj. apply in_seq in Hj. destruct (Z.eqb_spec (Z.of_nat j - Z.of_nat i) q), (Nat.leb_spec (Z.to_nat (Z.of_nat i + q)) j), (Nat.ltb_spec j (Z.to_nat (Z.of_nat i + q + 1))); cbn [andb]; lia.
Qed.

(** * Sum over all pairs of frames *)
Section Pairs.
  Variable A : Type.
  Variable l : list A.
  Variable d : A.
  Variable c : nat -> A -> nat -> A -> nat.
  (** Sums of [c] over all outcomes of one frame, of two frames *)
  Definition own (i : nat) : nat := nsum l (fun a => c i a i a).
  Definition two (i j : nat) : nat := nsum l (fun a => nsum l (fun b => c i a j b)).
  Lemma pairs_mean n :
    length l * length l * nsum (seqs l n) (fun s => nsum (seq 0 n) (fun i => nsum (seq 0 n) (fun j => c i (nth i s d) j (nth j s d))))
    = length l ^ n * nsum (seq 0 n) (fun i => nsum (seq 0 n) (fun j => if i =? j then length l * own i else two i j)).
  Proof.
    rewrite nsum_swap. rewrite <- !nsum_mul. apply nsum_ext. intros i Hi. apply in_seq in Hi. rewrite nsum_swap, <- !nsum_mul. apply nsum_ext. intros j Hj. apply in_seq in Hj.
    destruct (Nat.eqb_spec i j) as [<-|E].
    - pose proof (@place A l d n i (fun a => c i a i a) ltac:(lia)) as P. unfold own. nia.
    - apply (places l d (fun a b => c i a j b)); lia.
  Qed.
End Pairs.

(** * One frame of the first camera and one of the second *)
Lemma nsum_pair A B (l : list A) (l' : list B) f : nsum (list_prod l l') f = nsum l (fun a => nsum l' (fun b => f (a, b))).
Proof. induction l as [|x l IH]; [reflexivity|]. cbn [list_prod]. rewrite nsum_app, nsum_cons, nsum_map, IH. reflexivity. Qed.
Lemma nsum_range' n (f : nat -> nat) lo hi : (forall x, x < n -> f x = if (lo <=? x) && (x <? hi) then 1 else 0) -> nsum (seq 0 n) f = Nat.min n hi - lo.
Proof. intros H. rewrite (nsum_ext _ _ (fun x => if (lo <=? x) && (x <? hi) then 1 else 0)) by (intros x Hx; apply in_seq in Hx; apply H; lia). rewrite nsum_range. lia. Qed.
Definition ind (b : bool) : nat := if b then 1 else 0.
Definition near (n : nat) (e : Z) : bool := ((- Z.of_nat n <? e) && (e <=? Z.of_nat n))%Z.
(** The second camera at r2 n, the first at r1 *)
Lemma offset_one n (e : Z) : 0 < n -> nsum (seq 0 n) (fun r1 => nsum (seq 0 2) (fun r2 => ind (Z.of_nat (n * r2) - Z.of_nat r1 =? e)%Z)) = ind (near n e).
Proof.
  intros Hn. cbn [seq]. rewrite (nsum_ext _ _ (fun r1 => ind (0 - Z.of_nat r1 =? e)%Z + ind (Z.of_nat n - Z.of_nat r1 =? e)%Z)).
  2:{ intros r1 _. rewrite !nsum_cons, Nat.mul_0_r, Nat.mul_1_r. cbn. rewrite Nat.add_0_r. reflexivity. }
  rewrite nsum_add. rewrite (@nsum_range' n _ (Z.to_nat (- e)) (Z.to_nat (- e + 1))).
  2:{ intros x Hx. unfold ind. destruct (Z.eqb_spec (0 - Z.of_nat x) e), (Nat.leb_spec (Z.to_nat (- e)) x), (Nat.ltb_spec x (Z.to_nat (- e + 1))); cbn [andb]; lia. }
  rewrite (@nsum_range' n _ (Z.to_nat (Z.of_nat n - e)) (Z.to_nat (Z.of_nat n - e + 1))).
  2:{ intros x Hx. unfold ind. destruct (Z.eqb_spec (Z.of_nat n - Z.of_nat x) e), (Nat.leb_spec (Z.to_nat (Z.of_nat n - e)) x), (Nat.ltb_spec x (Z.to_nat (Z.of_nat n - e + 1))); cbn [andb]; lia. }
  unfold ind, near. destruct (Z.ltb_spec (- Z.of_nat n) e), (Z.leb_spec e (Z.of_nat n)); cbn [andb]; lia.
Qed.
(** Both cameras at their r1 *)
Lemma offset_both n (e : Z) : nsum (seq 0 n) (fun r1 => nsum (seq 0 n) (fun r2 => ind (Z.of_nat r2 - Z.of_nat r1 =? e)%Z)) = n - Z.abs_nat e.
Proof. exact (frames_at n e). Qed.

(** * The first scheme *)
Definition alphabet1 (n : nat) : list (nat * nat) := list_prod (seq 0 n) (seq 0 2).
Definition first1 (n i : nat) (a : nat * nat) : Z := Z.of_nat (2 * n * i + fst a).
Definition second1 (n j : nat) (b : nat * nat) : Z := Z.of_nat (2 * n * j + n * snd b).
Definition met1 (n : nat) (k : Z) (i : nat) (a : nat * nat) (j : nat) (b : nat * nat) : nat := ind (second1 n j b - first1 n i a =? k)%Z.
Lemma alphabet1_length n : length (alphabet1 n) = 2 * n.
Proof. unfold alphabet1. rewrite prod_length, !seq_length. lia. Qed.
Lemma shifted n k i j x y : (Z.of_nat (2 * n * j + x) - Z.of_nat (2 * n * i + y) =? k)%Z = (Z.of_nat x - Z.of_nat y =? k - 2 * Z.of_nat n * (Z.of_nat j - Z.of_nat i))%Z.
Proof. apply Bool.eq_iff_eq_true. rewrite !Z.eqb_eq. lia. Qed.
Lemma own1 n k i : 0 < n -> own (alphabet1 n) (met1 n k) i = ind (near n k).
Proof.
  intros Hn. unfold own, alphabet1. rewrite nsum_pair, <- (@offset_one n k Hn). apply nsum_ext. intros a _. apply nsum_ext. intros b _. unfold met1, second1, first1. cbn [fst snd]. rewrite shifted, Z.sub_diag, Z.mul_0_r, Z.sub_0_r. reflexivity.
Qed.
Lemma two1 n k i j : 0 < n -> two (alphabet1 n) (met1 n k) i j = 2 * n * ind (near n (k - 2 * Z.of_nat n * (Z.of_nat j - Z.of_nat i))).
Proof.
  intros Hn. unfold two, alphabet1. rewrite <- (@offset_one n _ Hn). set (e := (k - _)%Z).
  rewrite nsum_pair, <- nsum_mul. apply nsum_ext. intros a _.
  rewrite (nsum_ext _ _ (fun _ => n * nsum (seq 0 2) (fun r2 => ind (Z.of_nat (n * r2) - Z.of_nat a =? e)%Z))).
  - rewrite nsum_const, seq_length. lia.
  - intros a' _. rewrite nsum_pair. rewrite (nsum_ext _ _ (fun _ => nsum (seq 0 2) (fun r2 => ind (Z.of_nat (n * r2) - Z.of_nat a =? e)%Z))).
    + rewrite nsum_const, seq_length. reflexivity.
    + intros b _. apply nsum_ext. intros b' _. unfold met1, second1, first1. cbn [fst snd]. rewrite shifted. reflexivity.
Qed.
Lemma near_only n q d i : (0 < n)%nat -> (- Z.of_nat n < d <= Z.of_nat n)%Z -> near n (2 * Z.of_nat n * q + d - 2 * Z.of_nat n * i) = (i =? q)%Z.
Proof.
  intros Hn Hd. unfold near. destruct (Z.eqb_spec i q) as [->|E].
  - replace (2 * Z.of_nat n * q + d - 2 * Z.of_nat n * q)%Z with d by lia. lia.
  - assert (i < q \/ q < i)%Z as [H|H] by lia.
    + assert (2 * Z.of_nat n * (q - i) >= 2 * Z.of_nat n)%Z by nia. lia.
    + assert (2 * Z.of_nat n * (i - q) >= 2 * Z.of_nat n)%Z by nia. lia.
Qed.
Lemma near_zero n q d : (0 < n)%nat -> (- Z.of_nat n < d <= Z.of_nat n)%Z -> near n (2 * Z.of_nat n * q + d) = (q =? 0)%Z.
Proof. intros Hn Hd. rewrite (Z.eqb_sym q 0), <- (near_only q 0 Hn Hd). f_equal. lia. Qed.
Lemma scheme1 n nf q d : 0 < n -> (- Z.of_nat n < d <= Z.of_nat n)%Z -> let k := (2 * Z.of_nat n * q + d)%Z in
  2 * n * nsum (seqs (alphabet1 n) nf) (fun s => nsum (seq 0 nf) (fun i => nsum (seq 0 nf) (fun j => met1 n k i (nth i s (0, 0)) j (nth j s (0, 0))))) = (2 * n) ^ nf * (nf - Z.abs_nat q).
Proof.
  intros Hn Hd k. pose proof (pairs_mean (alphabet1 n) (0, 0) (met1 n k) nf) as P. rewrite !alphabet1_length in P.
  rewrite (nsum_ext (seq 0 nf) _ (fun i => nsum (seq 0 nf) (fun j => 2 * n * (if (Z.of_nat j - Z.of_nat i =? q)%Z then 1 else 0)))) in P.
  - rewrite (nsum_ext (seq 0 nf) _ (fun i => 2 * n * nsum (seq 0 nf) (fun j => if (Z.of_nat j - Z.of_nat i =? q)%Z then 1 else 0))) in P by (intros; apply nsum_mul).
    rewrite nsum_mul, frames_at in P. set (S0 := nsum (seqs _ _) _) in *. clearbody S0. nia.
  - intros i _. apply nsum_ext. intros j _. destruct (Nat.eqb_spec i j) as [<-|E].
    + rewrite own1 by exact Hn. unfold k. rewrite near_zero by assumption. rewrite Z.sub_diag, Z.eqb_sym. reflexivity.
    + rewrite two1 by exact Hn. unfold k. rewrite near_only by assumption. reflexivity.
Qed.

(** * The second scheme: with r3 = 0 the second camera fires with the first *)
Definition alphabet2 (n : nat) : list (nat * nat * nat) := list_prod (alphabet1 n) (seq 0 (2 * n)).
Definition place2 (n : nat) (b : nat * nat * nat) : nat := if snd b =? 0 then fst (fst b) else n * snd (fst b).
Definition met2 (n : nat) (k : Z) (i : nat) (a : nat * nat * nat) (j : nat) (b : nat * nat * nat) : nat :=
  ind (Z.of_nat (2 * n * j + place2 n b) - Z.of_nat (2 * n * i + fst (fst a)) =? k)%Z.
Lemma alphabet2_length n : length (alphabet2 n) = 2 * n * (2 * n).
Proof. unfold alphabet2. rewrite prod_length, alphabet1_length, seq_length. reflexivity. Qed.
Lemma masked n (g : bool -> nat) : 0 < n -> nsum (seq 0 (2 * n)) (fun r => g (r =? 0)) = g true + (2 * n - 1) * g false.
Proof.
  intros Hn. replace (2 * n) with (S (2 * n - 1)) at 1 by lia. cbn [seq]. rewrite nsum_cons. cbn [Nat.eqb]. f_equal.
  rewrite (nsum_ext _ _ (fun _ => g false)). { rewrite nsum_const, seq_length. reflexivity. } intros r Hr. apply in_seq in Hr. destruct r; [lia|reflexivity].
Qed.
Lemma own2 n k i : 0 < n -> own (alphabet2 n) (met2 n k) i = 2 * n * ind (k =? 0)%Z + (2 * n - 1) * ind (near n k).
Proof.
  intros Hn. unfold own, alphabet2, alphabet1. rewrite !nsum_pair.
  rewrite (nsum_ext _ _ (fun r1 => 2 * ind (k =? 0)%Z + (2 * n - 1) * nsum (seq 0 2) (fun r2 => ind (Z.of_nat (n * r2) - Z.of_nat r1 =? k)%Z))).
  - rewrite nsum_add, nsum_const, nsum_mul, offset_one, seq_length by exact Hn. lia.
  - intros r1 _. rewrite (nsum_ext _ _ (fun r2 => ind (k =? 0)%Z + (2 * n - 1) * ind (Z.of_nat (n * r2) - Z.of_nat r1 =? k)%Z)).
    + rewrite nsum_add, nsum_const, nsum_mul, seq_length. reflexivity.
    + intros r2 _. unfold met2, place2. cbn [fst snd]. rewrite (masked (fun b => ind (Z.of_nat (2 * n * i + (if b then r1 else n * r2)) - Z.of_nat (2 * n * i + r1) =? k)%Z) Hn).
      rewrite !shifted, !Z.sub_diag, !Z.mul_0_r, !Z.sub_0_r, (Z.eqb_sym 0 k). reflexivity.
Qed.
Lemma two2 n k i j : 0 < n -> let e := (k - 2 * Z.of_nat n * (Z.of_nat j - Z.of_nat i))%Z in
  two (alphabet2 n) (met2 n k) i j = 4 * n * (2 * (n - Z.abs_nat e) + (2 * n - 1) * (n * ind (near n e))).
Proof.
  intros Hn e. unfold two, alphabet2, alphabet1. rewrite !nsum_pair.
  rewrite (nsum_ext _ _ (fun r1 => 4 * n * (2 * nsum (seq 0 n) (fun b1 => ind (Z.of_nat b1 - Z.of_nat r1 =? e)%Z) + (2 * n - 1) * (n * nsum (seq 0 2) (fun b2 => ind (Z.of_nat (n * b2) - Z.of_nat r1 =? e)%Z))))).
  - rewrite nsum_mul, nsum_add, !nsum_mul, offset_one, offset_both by exact Hn. reflexivity.
  - intros r1 _.
    assert (B : forall a2 a3, nsum (list_prod (list_prod (seq 0 n) (seq 0 2)) (seq 0 (2 * n))) (met2 n k i (r1, a2, a3) j)
      = 2 * nsum (seq 0 n) (fun b1 => ind (Z.of_nat b1 - Z.of_nat r1 =? e)%Z) + (2 * n - 1) * (n * nsum (seq 0 2) (fun b2 => ind (Z.of_nat (n * b2) - Z.of_nat r1 =? e)%Z))).
    { intros a2 a3. rewrite !nsum_pair. set (Z2 := nsum (seq 0 2) (fun b2 => ind (Z.of_nat (n * b2) - Z.of_nat r1 =? e)%Z)).
      rewrite (nsum_ext _ _ (fun b1 => 2 * ind (Z.of_nat b1 - Z.of_nat r1 =? e)%Z + (2 * n - 1) * Z2)).
      - rewrite nsum_add, nsum_const, nsum_mul, seq_length. lia.
      - intros b1 _. rewrite (nsum_ext _ _ (fun b2 => ind (Z.of_nat b1 - Z.of_nat r1 =? e)%Z + (2 * n - 1) * ind (Z.of_nat (n * b2) - Z.of_nat r1 =? e)%Z)).
        + rewrite nsum_add, nsum_const, nsum_mul, seq_length. reflexivity.
        + intros b2 _. unfold met2, place2. cbn [fst snd]. rewrite (masked (fun b => ind (Z.of_nat (2 * n * j + (if b then b1 else n * b2)) - Z.of_nat (2 * n * i + r1) =? k)%Z) Hn). rewrite !shifted. reflexivity. }
    set (X := 2 * nsum _ _ + _) in *. rewrite (nsum_ext _ _ (fun _ => 2 * n * X)). { rewrite nsum_const, seq_length. lia. }
    intros a2 _. rewrite (nsum_ext _ _ (fun _ => X)) by (intros a3 _; apply B). rewrite nsum_const, seq_length. reflexivity.
Qed.
Lemma abs_far n q d i : (0 < n)%nat -> (- Z.of_nat n < d <= Z.of_nat n)%Z -> n - Z.abs_nat (2 * Z.of_nat n * q + d - 2 * Z.of_nat n * i) = if (i =? q)%Z then n - Z.abs_nat d else 0.
Proof.
  intros Hn Hd. destruct (Z.eqb_spec i q) as [->|E]; [f_equal; f_equal; lia|].
  assert (i < q \/ q < i)%Z as [H|H] by lia.
  - assert (2 * Z.of_nat n * (q - i) >= 2 * Z.of_nat n)%Z by nia. lia.
  - assert (2 * Z.of_nat n * (i - q) >= 2 * Z.of_nat n)%Z by nia. lia.
Qed.
Lemma scheme2 n nf q d : 0 < n -> (- Z.of_nat n < d <= Z.of_nat n)%Z -> let k := (2 * Z.of_nat n * q + d)%Z in
  4 * n * n * n * nsum (seqs (alphabet2 n) nf) (fun s => nsum (seq 0 nf) (fun i => nsum (seq 0 nf) (fun j => met2 n k i (nth i s (0, 0, 0)) j (nth j s (0, 0, 0)))))
  = (2 * n * (2 * n)) ^ nf * ((nf - Z.abs_nat q) * (n * (2 * n - 1) + if (q =? 0)%Z then (if (d =? 0)%Z then 2 * n * n else 0) else 2 * (n - Z.abs_nat d))).
Proof.
  intros Hn Hd k. pose proof (pairs_mean (alphabet2 n) (0, 0, 0) (met2 n k) nf) as P. rewrite !alphabet2_length in P.
  set (w := n * (2 * n - 1) + if (q =? 0)%Z then (if (d =? 0)%Z then 2 * n * n else 0) else 2 * (n - Z.abs_nat d)).
  rewrite (nsum_ext (seq 0 nf) _ (fun i => nsum (seq 0 nf) (fun j => 4 * n * w * (if (Z.of_nat j - Z.of_nat i =? q)%Z then 1 else 0)))) in P.
  - rewrite (nsum_ext (seq 0 nf) _ (fun i => 4 * n * w * nsum (seq 0 nf) (fun j => if (Z.of_nat j - Z.of_nat i =? q)%Z then 1 else 0))) in P by (intros; apply nsum_mul).
    rewrite nsum_mul, frames_at in P. set (S0 := nsum (seqs _ _) _) in *. clearbody S0 w. set (m := (2 * n * (2 * n)) ^ nf) in *. clearbody m. set (c := nf - _) in *. clearbody c.
    apply (proj1 (Nat.mul_cancel_l _ _ (4 * n) ltac:(lia))). transitivity (2 * n * (2 * n) * (2 * n * (2 * n)) * S0); [ring|]. rewrite P. ring.
  - intros i _. apply nsum_ext. intros j _. destruct (Nat.eqb_spec i j) as [<-|E].
    + rewrite own2 by exact Hn. unfold k. rewrite near_zero by assumption. rewrite Z.sub_diag, (Z.eqb_sym 0 q). unfold w. destruct (Z.eqb_spec q 0) as [->|Q].
      * rewrite Z.mul_0_r, Z.add_0_l. cbn [ind]. destruct (d =? 0)%Z; cbn [ind]; ring.
      * replace (2 * Z.of_nat n * q + d =? 0)%Z with false; [cbn [ind]; ring|]. symmetry. apply Z.eqb_neq. intros H. assert (near n (2 * Z.of_nat n * q + d) = true) as T by (rewrite H; unfold near; lia). rewrite near_zero in T by assumption. lia.
    + rewrite two2 by exact Hn. unfold k. rewrite near_only, abs_far by assumption. destruct (Z.eqb_spec (Z.of_nat j - Z.of_nat i) q) as [Q|Q]; cbn [ind]; [|ring].
      unfold w. destruct (Z.eqb_spec q 0); [lia|]. ring.
Qed.
