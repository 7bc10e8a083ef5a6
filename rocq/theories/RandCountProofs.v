(** Mean number of pairs of frames at a delay in the random triggering scheme of one camera. *)
From Verif Require Import Base Ordered SimModel WalkModel.
Set Implicit Arguments.
Local Open Scope nat_scope.

(** Sum over a list of a number for every element *)
Definition nsum (A : Type) (l : list A) (f : A -> nat) : nat := list_sum (map f l).
(** All sequences of nframes random offsets below n *)
Fixpoint outcomes (nframes n : nat) : list (list nat) :=
  match nframes with
  | O => [[]]
  | S nframes => flat_map (fun r => map (cons r) (outcomes nframes n)) (seq 0 n)
  end.
(** Times of the frames, the first of which is frame number i *)
Fixpoint times (n i : nat) (r : list nat) : list nat :=
  match r with
  | [] => []
  | x :: r => i * n + x :: times n (S i) r
  end.

Lemma nsum_cons A (x : A) l f : nsum (x :: l) f = f x + nsum l f.
Proof. reflexivity. Qed.
Lemma nsum_app A (l l' : list A) f : nsum (l ++ l') f = nsum l f + nsum l' f.
Proof. unfold nsum. rewrite map_app, list_sum_app. reflexivity. Qed.
Lemma nsum_ext A (l : list A) f g : (forall x, In x l -> f x = g x) -> nsum l f = nsum l g.
Proof. intros H. unfold nsum. f_equal. apply map_ext_in. exact H. Qed.
Lemma nsum_add A (l : list A) f g : nsum l (fun x => f x + g x) = nsum l f + nsum l g.
Proof. induction l as [|x l IH]; [reflexivity|]. rewrite !nsum_cons, IH. lia. Qed.
Lemma nsum_const A (l : list A) c : nsum l (fun _ => c) = length l * c.
Proof. induction l as [|x l IH]; [reflexivity|]. rewrite nsum_cons, IH. cbn. lia. Qed.
Lemma nsum_mul A (l : list A) c f : nsum l (fun x => c * f x) = c * nsum l f.
Proof. induction l as [|x l IH]; [cbn; lia|]. rewrite !nsum_cons, IH. lia. Qed.
Lemma nsum_flat A B (l : list A) (h : A -> list B) f : nsum (flat_map h l) f = nsum l (fun x => nsum (h x) f).
Proof. induction l as [|x l IH]; [reflexivity|]. cbn [flat_map]. rewrite nsum_app, nsum_cons, IH. reflexivity. Qed.
Lemma nsum_map A B (l : list A) (h : A -> B) f : nsum (map h l) f = nsum l (fun x => f (h x)).
Proof. unfold nsum. rewrite map_map. reflexivity. Qed.
Lemma nsum_le1 A (l : list A) f : (forall x, In x l -> f x = 0) -> nsum l f = 0.
Proof. intros H. rewrite (nsum_ext l f (fun _ => 0) H), nsum_const. lia. Qed.
(** How many of a range of numbers lie between two bounds *)
Lemma nsum_range n : forall s lo hi, nsum (seq s n) (fun x => if (lo <=? x) && (x <? hi) then 1 else 0) = Nat.min (s + n) hi - Nat.max s lo.
Proof.
  induction n as [|n IH]; intros s lo hi; [cbn; lia|]. cbn [seq]. rewrite nsum_cons, IH. destruct (Nat.leb_spec lo s), (Nat.ltb_spec s hi); cbn [andb]; lia.
Qed.
Lemma nsum_outcomes nframes n f : nsum (outcomes (S nframes) n) f = nsum (seq 0 n) (fun x => nsum (outcomes nframes n) (fun r => f (x :: r))).
Proof. cbn [outcomes]. rewrite nsum_flat. apply nsum_ext. intros x _. apply nsum_map. Qed.
Lemma outcomes_length nframes n : length (outcomes nframes n) = n ^ nframes.
Proof.
  assert (L : forall A (l : list A), length l = nsum l (fun _ => 1)) by (intros; rewrite nsum_const; lia).
  induction nframes as [|k IH]; [reflexivity|]. rewrite L, nsum_outcomes. rewrite (nsum_ext _ _ (fun _ => n ^ k)) by (intros x _; rewrite <- L; exact IH). rewrite nsum_const, seq_length. reflexivity.
Qed.

(** How often, over all outcomes, some frame is taken at time T *)
Definition hits (T : nat) (t : list nat) : nat := nsum t (fun x => if x =? T then 1 else 0).
Lemma hits_total n T nframes : forall i, n * nsum (outcomes nframes n) (fun r => hits T (times n i r)) = n ^ nframes * (if (i * n <=? T) && (T <? (i + nframes) * n) then 1 else 0).
Proof.
  induction nframes as [|k IH]; intros i.
  - cbn [outcomes times]. unfold hits, nsum. cbn [map list_sum fold_right times]. destruct (Nat.leb_spec (i * n) T), (Nat.ltb_spec T ((i + 0) * n)); cbn [andb]; rewrite ?Nat.add_0_r in *; lia.
  - rewrite nsum_outcomes. cbn [times]. unfold hits. rewrite (nsum_ext _ _ (fun x => (n ^ k) * (if i * n + x =? T then 1 else 0) + nsum (outcomes k n) (fun r => hits T (times n (S i) r)))).
    2:{ intros x _. unfold hits. rewrite (nsum_ext _ _ (fun r => (if i * n + x =? T then 1 else 0) + nsum (times n (S i) r) (fun x => if x =? T then 1 else 0))) by reflexivity. rewrite nsum_add, nsum_const, outcomes_length. reflexivity. }
    rewrite nsum_add, nsum_mul, nsum_const, seq_length.
    assert (E : nsum (seq 0 n) (fun x => if i * n + x =? T then 1 else 0) = if (i * n <=? T) && (T <? (i + 1) * n) then 1 else 0).
    { rewrite (nsum_ext _ _ (fun x => if (T - i * n <=? x) && (x <? if i * n <=? T then S (T - i * n) else 0) then 1 else 0)).
      - rewrite nsum_range. destruct (Nat.leb_spec (i * n) T), (Nat.ltb_spec T ((i + 1) * n)); cbn [andb]; lia.
      - intros x Hx. destruct (Nat.eqb_spec (i * n + x) T), (Nat.leb_spec (i * n) T); destruct (Nat.leb_spec (T - i * n) x); cbn [andb]; try lia; destruct (Nat.ltb_spec x (S (T - i * n))); try lia; reflexivity. }
    rewrite E. specialize (IH (S i)). cbn [Nat.pow]. rewrite Nat.mul_add_distr_l, IH. destruct (Nat.leb_spec (i * n) T), (Nat.ltb_spec T ((i + 1) * n)), (Nat.ltb_spec T ((i + S k) * n)), (Nat.leb_spec (S i * n) T), (Nat.ltb_spec T ((S i + k) * n)); cbn [andb]; try lia; nia.
Qed.

(** Ordered pairs of times at distance k *)
Definition pairs (k : nat) (t : list nat) : nat := nsum t (fun a => hits (a + k) t).
Lemma times_ge n r : forall i x, In x (times n i r) -> i * n <= x.
Proof. induction r as [|y r IH]; intros i x; cbn [times In]; [tauto|]. intros [<-|H]; [lia|]. specialize (IH _ _ H). lia. Qed.
Lemma outcomes_lt nframes n : forall r, In r (outcomes nframes n) -> length r = nframes /\ forall x, In x r -> x < n.
Proof.
  induction nframes as [|k IH]; intros r; cbn [outcomes]; [intros [<-|[]]; split; [reflexivity|intros x []]|].
  rewrite in_flat_map. intros (x & Hx & H). apply in_map_iff in H. destruct H as (r' & <- & H'). destruct (IH r' H') as [L B]. split; [cbn; lia|]. intros y [<-|Hy]; [apply in_seq in Hx; lia|exact (B y Hy)].
Qed.
Lemma pairs_cons n k i x r : 0 < k -> x < n -> pairs k (i * n + x :: times n (S i) r) = hits (i * n + x + k) (times n (S i) r) + pairs k (times n (S i) r).
Proof.
  intros Hk Hx. unfold pairs. rewrite nsum_cons. unfold hits at 1. rewrite nsum_cons. destruct (Nat.eqb_spec (i * n + x) (i * n + x + k)); [lia|]. cbn [Nat.add]. f_equal.
  apply nsum_ext. intros a Ha. apply times_ge in Ha. unfold hits. rewrite nsum_cons. destruct (Nat.eqb_spec (i * n + x) (a + k)); [lia|]. reflexivity.
Qed.
(** The frames do not depend on the number of the first one *)
Lemma times_shift n r : forall i, times n (S i) r = map (Nat.add n) (times n i r).
Proof. induction r as [|x r IH]; intros i; [reflexivity|]. cbn [times map]. rewrite IH. f_equal. lia. Qed.
Lemma pairs_shift k c t : pairs k (map (Nat.add c) t) = pairs k t.
Proof.
  unfold pairs. rewrite nsum_map. apply nsum_ext. intros a _. unfold hits. rewrite nsum_map. apply nsum_ext. intros b _.
  destruct (Nat.eqb_spec (c + b) (c + a + k)), (Nat.eqb_spec b (a + k)); lia.
Qed.
Lemma pairs_total_S n k nframes : 0 < k ->
  n * nsum (outcomes (S nframes) n) (fun r => pairs k (times n 0 r)) = n * (n * nsum (outcomes nframes n) (fun r => pairs k (times n 0 r))) + n ^ nframes * (Nat.min n (S nframes * n - k) - (n - k)).
Proof.
  intros Hk. rewrite nsum_outcomes. cbn [times].
  rewrite (nsum_ext _ _ (fun x => nsum (outcomes nframes n) (fun r => hits (x + k) (times n 1 r)) + nsum (outcomes nframes n) (fun r => pairs k (times n 0 r)))).
  2:{ intros x Hx. apply in_seq in Hx. rewrite <- nsum_add. apply nsum_ext. intros r Hr. change (0 * n + x) with x. rewrite <- (pairs_shift k n (times n 0 r)), <- times_shift.
      pose proof (@pairs_cons n k 0 x r Hk ltac:(lia)) as P. cbn [Nat.mul Nat.add] in P. exact P. }
  rewrite nsum_add, nsum_const, seq_length, Nat.mul_add_distr_l. rewrite <- nsum_mul.
  rewrite (nsum_ext _ _ (fun x => n ^ nframes * (if (n - k <=? x) && (x <? S nframes * n - k) then 1 else 0))).
  - rewrite nsum_mul, nsum_range. replace (Nat.min (0 + n) (S nframes * n - k) - Nat.max 0 (n - k)) with (Nat.min n (S nframes * n - k) - (n - k)) by lia. lia.
  - intros x _. rewrite hits_total. f_equal. destruct (Nat.leb_spec (1 * n) (x + k)), (Nat.ltb_spec (x + k) ((1 + nframes) * n)), (Nat.leb_spec (n - k) x), (Nat.ltb_spec x (S nframes * n - k)); cbn [andb]; try reflexivity; lia.
Qed.
(** The mean number of pairs *)
Lemma pairs_total_far n k nframes : 0 < n -> n <= k -> n * n * nsum (outcomes nframes n) (fun r => pairs k (times n 0 r)) = n ^ nframes * (nframes * n - k).
Proof.
  intros Hn Hk. induction nframes as [|m IH]; [cbn; lia|]. rewrite <- Nat.mul_assoc, pairs_total_S, (Nat.mul_assoc n n), IH by lia. cbn [Nat.pow]. replace (n - k) with 0 by lia.
  assert (E : S m * n - k = (m * n - k) + (Nat.min n (S m * n - k) - 0)) by lia. rewrite E at 2. ring.
Qed.
Lemma pairs_total_near n k nframes : 0 < k < n -> n * n * nsum (outcomes (S nframes) n) (fun r => pairs k (times n 0 r)) = n ^ S nframes * (nframes * k).
Proof.
  intros Hk. induction nframes as [|m IH].
  - rewrite <- Nat.mul_assoc, pairs_total_S by lia. cbn [outcomes]. unfold nsum at 1. cbn [map list_sum fold_right times]. unfold pairs, nsum. cbn [map list_sum fold_right]. replace (Nat.min n (1 * n - k) - (n - k)) with 0 by lia. lia.
  - rewrite <- Nat.mul_assoc, pairs_total_S, (Nat.mul_assoc n n), IH by lia. replace (Nat.min n (S (S m) * n - k) - (n - k)) with k by lia. cbn [Nat.pow]. ring.
Qed.
