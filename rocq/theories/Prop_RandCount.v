(** C86: the counts of random_time_count are the mean numbers of pairs of frames. *)
From Verif Require Import Base Ordered Examples SimModel SimProofs2 WalkModel RandCountProofs.
Set Implicit Arguments.
Local Open Scope nat_scope.

(** The frames of create_random_time: frame i is taken at i n + r_i *)
Definition frame_times (n : nat) (r : list nat) : list nat := map (fun p => fst p * n + snd p) (combine (seq 0 (length r)) r).
(** The number of pairs of frames (also of a frame with itself) at delay k *)
Definition pairs_at (k : nat) (t : list nat) : nat := length (filter (fun p => snd p =? fst p + k) (list_prod t t)).
(** L lists every outcome of the random numbers once *)
Definition all_outcomes (nframes n : nat) (L : list (list nat)) : Prop := NoDup L /\ forall r, In r L <-> length r = nframes /\ forall x, In x r -> x < n.

Lemma frame_times_times n r : frame_times n r = times n 0 r.
Proof. unfold frame_times. generalize 0. induction r as [|x r IH]; intros i; [reflexivity|]. cbn [length seq combine map times fst snd]. f_equal. apply IH. Qed.
Lemma filter_length_nsum A (p : A -> bool) l : length (filter p l) = nsum l (fun x => if p x then 1 else 0).
Proof. induction l as [|x l IH]; [reflexivity|]. rewrite nsum_cons. cbn [filter]. destruct (p x); cbn [length]; rewrite IH; lia. Qed.
Lemma nsum_prod A B (l : list A) (l' : list B) f : nsum (list_prod l l') f = nsum l (fun a => nsum l' (fun b => f (a, b))).
Proof. induction l as [|x l IH]; [reflexivity|]. cbn [list_prod]. rewrite nsum_app, nsum_cons, nsum_map, IH. reflexivity. Qed.
Lemma pairs_at_pairs k t : pairs_at k t = pairs k t.
Proof. unfold pairs_at, pairs, hits. rewrite filter_length_nsum, nsum_prod. reflexivity. Qed.
Lemma outcomes_in nframes n r : In r (outcomes nframes n) <-> length r = nframes /\ forall x, In x r -> x < n.
Proof.
  split; [apply outcomes_lt|]. revert r. induction nframes as [|m IH]; intros [|x r] [L B]; try discriminate; [left; reflexivity|]. cbn [outcomes]. apply in_flat_map. exists x. split; [apply in_seq; specialize (B x (or_introl eq_refl)); lia|].
  apply in_map. apply IH. split; [cbn in L; lia|]. intros y Hy. apply B. right. exact Hy.
Qed.
Lemma outcomes_nodup nframes n : NoDup (outcomes nframes n).
Proof.
  induction nframes as [|m IH]; [repeat constructor; intros []|]. cbn [outcomes]. generalize 0 as s. generalize n at 2 as k. induction k as [|k IHk]; intros s; [constructor|]. cbn [seq flat_map].
  assert (D : forall (l1 l2 : list (list nat)), NoDup l1 -> NoDup l2 -> (forall x, In x l1 -> ~ In x l2) -> NoDup (l1 ++ l2)).
  { induction l1 as [|a l1 IH1]; intros l2 H1 H2 H3; [exact H2|]. inversion H1; subst. cbn. constructor; [|apply IH1; auto; intros; apply H3; right; assumption]. rewrite in_app_iff. intros [H|H]; [auto|]. apply (H3 a (or_introl eq_refl) H). }
  apply D; [|apply IHk|].
  - apply FinFun.Injective_map_NoDup; [intros a b E; congruence|exact IH].
  - intros x Hx Hy. apply in_map_iff in Hx. destruct Hx as (a & <- & _). apply in_flat_map in Hy. destruct Hy as (z & Hz & Hy). apply in_map_iff in Hy. destruct Hy as (b & E & _). injection E as E _. apply in_seq in Hz. lia.
Qed.
Lemma all_perm nframes n L : all_outcomes nframes n L -> Permutation L (outcomes nframes n).
Proof. intros [D H]. apply NoDup_Permutation; [exact D|apply outcomes_nodup|]. intros r. rewrite H, outcomes_in. reflexivity. Qed.
Lemma nsum_perm A (l l' : list A) f : Permutation l l' -> nsum l f = nsum l' f.
Proof. induction 1; rewrite ?nsum_cons; try lia; reflexivity. Qed.

(** create_random_time with dt_min <= 1 gives the times of an outcome, and the times of every outcome:
    the numbers drawn for different frames are unrelated. *)
Theorem C86_outcomes nframes n dt_min : 1 <= n -> (dt_min <= 1)%Z ->
  (forall r, length r = nframes -> (forall x, In x r -> x < n) -> create_random_time nframes (Z.of_nat n) dt_min (fun i => Z.of_nat (nth i r 0)) = Ok (map Z.of_nat (frame_times n r))) /\
  (forall raw, exists r, length r = nframes /\ (forall x, In x r -> x < n) /\ create_random_time nframes (Z.of_nat n) dt_min raw = Ok (map Z.of_nat (frame_times n r))).
Proof.
  intros Hn Hd.
  assert (G : forall raw frames i r1, (0 <= r1 < Z.of_nat n)%Z ->
    random_time_loop (Z.of_nat n) dt_min raw i frames r1 = Ok (map Z.of_nat (times n i (map (fun k => Z.to_nat (raw k mod Z.of_nat n)) (seq i frames))))).
  { intros raw frames. induction frames as [|k IH]; intros i r1 H1; [reflexivity|]. cbn [random_time_loop seq map times]. unfold randint. replace (Z.max 0 (dt_min - Z.of_nat n + r1)) with 0%Z by lia.
    destruct (Z.ltb_spec 0 (Z.of_nat n)); [|lia]. cbn [bind]. pose proof (Z.mod_pos_bound (raw i) (Z.of_nat n) ltac:(lia)). rewrite Z.sub_0_r, Z.add_0_l, IH by lia. cbn [bind]. do 2 f_equal. rewrite Nat2Z.inj_add, Nat2Z.inj_mul, Z2Nat.id by lia. reflexivity. }
  split.
  - intros r L B. unfold create_random_time. rewrite G by lia. rewrite frame_times_times. do 3 f_equal. clear G Hd. revert nframes L. induction r as [|x r IH]; intros nframes L; cbn in L; subst nframes; [reflexivity|].
    cbn [seq map nth]. f_equal.
    + rewrite Z.mod_small by (specialize (B x (or_introl eq_refl)); lia). apply Nat2Z.id.
    + rewrite <- seq_shift, map_map. cbn [nth]. apply IH; [intros y Hy; apply B; right; exact Hy|reflexivity].
  - intros raw. exists (map (fun k => Z.to_nat (raw k mod Z.of_nat n)) (seq 0 nframes)). split; [rewrite map_length, seq_length; reflexivity|]. split.
    + intros x Hx. apply in_map_iff in Hx. destruct Hx as (k & <- & _). pose proof (Z.mod_pos_bound (raw k) (Z.of_nat n) ltac:(lia)). lia.
    + unfold create_random_time. rewrite G by lia. rewrite frame_times_times. reflexivity.
Qed.
Print Assumptions C86_outcomes.
Theorem C86_finite nframes n : exists L, all_outcomes nframes n L /\ length L = n ^ nframes.
Proof. exists (outcomes nframes n). split; [split; [apply outcomes_nodup|apply outcomes_in]|apply outcomes_length]. Qed.
Print Assumptions C86_finite.

Section Mean.
  Variable K : OFld.
  Add Field Kmean : (flaw K).
  Local Notation "x / y" := (fdiv K x y).
  Local Notation "x * y" := (fmul K x y).
  Local Notation "x + y" := (fadd K x y).
  Local Notation num := (fnat K).
  Lemma num_mul a b : num (Nat.mul a b) = num a * num b.
  Proof. induction a as [|a IH]; [change (f0 K = f0 K * num b); ring|]. cbn [Nat.mul]. rewrite fnat_add', IH, fnat_S. ring. Qed.
  Lemma num_neq0 n : 0 < n -> num n <> f0 K.
  Proof. intros H. apply fnat_neq0. lia. Qed.
  Lemma count_at nframes n k : 0 < n -> 0 < nframes -> k <= Nat.mul nframes n -> exists count, random_time_count K nframes n = Ok count /\ length count = S (Nat.mul nframes n) /\
    nth k count (f0 K) = if k =? 0 then num (Nat.mul nframes n) else (if k <? n then num k / num n else f1 K) * (num (Nat.mul nframes n - k) / (num n * num n)).
  Proof.
    intros Hn Hf Hk. pose proof (num_neq0 Hn) as N0. unfold random_time_count. destruct (Nat.ltb_spec (Nat.add (Nat.mul nframes n) 1) n); [nia|].
    match goal with |- context [match ?c with [] => [] | _ :: _ => _ end] => remember c as count eqn:Ec end.
    assert (L : length count = S (Nat.mul nframes n)). { subst count. rewrite map_length, combine_length, map_length, !seq_length. lia. }
    assert (E : nth k count (f0 K) = (if k <? n then num k / num n else f1 K) * (num (Nat.mul nframes n - k) / (num n * num n))).
    { subst count. set (N := Nat.add (Nat.mul nframes n) 1). set (g := fun k => fdiv K (fdiv K (fnat K (nframes * n - k)%nat) (fnat K n)) (fnat K n)).
      set (h := fun p : nat * K => if (fst p <? n)%nat then fdiv K (fnat K (fst p)) (fnat K n) * snd p else snd p).
      rewrite (nth_indep _ (f0 K) (h (0%nat, g 0%nat))) by (rewrite map_length, combine_length, map_length, !seq_length; unfold N; lia). rewrite map_nth, combine_nth by (rewrite map_length; reflexivity). rewrite map_nth, seq_nth by (unfold N; lia).
      unfold h, g. cbn [fst snd Nat.add]. destruct (k <? n); field; exact N0. }
    destruct count as [|c0 count]; [cbn in L; lia|]. eexists. split; [reflexivity|]. split; [exact L|]. destruct k as [|k]; [reflexivity|]. exact E.
  Qed.
  (** For all delays from n on the count is the mean number of pairs over all outcomes; for smaller
      delays it is larger by k (n - k) / n^3, at most 1 / (4 n). *)
  Theorem C86_mean nframes n L k : 0 < n -> 0 < nframes -> all_outcomes nframes n L -> 0 < k <= Nat.mul nframes n ->
    exists count, random_time_count K nframes n = Ok count /\ length count = S (Nat.mul nframes n) /\
      num (length L) * nth k count (f0 K) = num (nsum L (fun r => pairs_at k (frame_times n r))) + num (length L) * (num (Nat.mul k (n - k)) / (num n * num n * num n)).
  Proof.
    intros Hn Hf HL Hk. destruct (@count_at nframes n k Hn Hf ltac:(lia)) as (count & E & Lc & C). exists count. split; [exact E|]. split; [exact Lc|]. rewrite C.
    pose proof (all_perm HL) as P. rewrite (nsum_perm _ P), (Permutation_length P), outcomes_length. rewrite (nsum_ext _ _ (fun r => pairs k (times n 0 r))) by (intros; rewrite pairs_at_pairs, frame_times_times; reflexivity).
    pose proof (num_neq0 Hn) as N0. destruct (Nat.eqb_spec k 0); [lia|].
    destruct (Nat.ltb_spec k n) as [H|H].
    - destruct nframes as [|m]; [lia|]. pose proof (@pairs_total_near n k m ltac:(lia)) as T. set (S0 := nsum _ _) in *. apply (f_equal num) in T. rewrite !num_mul in T.
      assert (T' : num S0 = num (n ^ S m) * (num m * num k) / (num n * num n)). { rewrite <- T. field. exact N0. }
      rewrite T'. assert (A1 : num (Nat.mul (S m) n - k) = num m * num n + num (n - k)). { rewrite <- num_mul, <- fnat_add'. f_equal. lia. }
      rewrite A1, num_mul. field. exact N0.
    - pose proof (@pairs_total_far n k nframes Hn H) as T. set (S0 := nsum _ _) in *. apply (f_equal num) in T. rewrite !num_mul in T.
      assert (T' : num S0 = num (n ^ nframes) * num (Nat.mul nframes n - k) / (num n * num n)). { rewrite <- T. field. exact N0. }
      rewrite T'. replace (n - k) with 0 by lia. rewrite Nat.mul_0_r. change (num 0%nat) with (f0 K). field. exact N0.
  Qed.
  (** At delay zero there are always as many pairs as frames, but the count is n times as large. *)
  Theorem C86_zero_refuted nframes n : 0 < n -> 0 < nframes ->
    (forall r, length r = nframes -> (forall x, In x r -> x < n) -> pairs_at 0 (frame_times n r) = nframes) /\
    exists count, random_time_count K nframes n = Ok count /\ nth 0 count (f0 K) = num n * num nframes.
  Proof.
    intros Hn Hf. split.
    - intros r L B. rewrite pairs_at_pairs, frame_times_times. unfold pairs.
      assert (H1 : forall r, (forall x, In x r -> x < n) -> forall i, (forall a, In a (times n i r) -> hits a (times n i r) = 1) /\ (forall a, a < Nat.mul i n -> hits a (times n i r) = 0)).
      { clear. intros r. induction r as [|x r IH]; intros B i; [split; [intros a []|reflexivity]|]. destruct (IH (fun y Hy => B y (or_intror Hy)) (S i)) as [I1 I2]. specialize (B x (or_introl eq_refl)). split.
        - intros a [<-|Ha]; unfold hits; cbn [times]; rewrite nsum_cons; fold (hits (Nat.add (Nat.mul i n) x) (times n (S i) r)).
          + rewrite Nat.eqb_refl. fold (hits (Nat.add (Nat.mul i n) x) (times n (S i) r)). rewrite I2 by lia. reflexivity.
          + fold (hits a (times n (S i) r)). rewrite (I1 a Ha). apply times_ge in Ha. destruct (Nat.eqb_spec (Nat.add (Nat.mul i n) x) a); [lia|reflexivity].
        - intros a Ha. unfold hits. cbn [times]. rewrite nsum_cons. fold (hits a (times n (S i) r)). rewrite I2 by lia. destruct (Nat.eqb_spec (Nat.add (Nat.mul i n) x) a); [lia|reflexivity]. }
      rewrite (nsum_ext _ _ (fun _ => 1)). 2:{ intros a Ha. rewrite Nat.add_0_r. apply (proj1 (H1 r B 0)). exact Ha. }
      rewrite nsum_const. assert (LT : forall r i, length (times n i r) = length r). { clear. induction r; intros i; cbn; auto. } rewrite LT. lia.
    - destruct (@count_at nframes n 0 Hn Hf ltac:(lia)) as (count & E & _ & C). exists count. split; [exact E|]. rewrite C. cbn [Nat.eqb]. rewrite num_mul. ring.
  Qed.
  (** Without frames *)
  Theorem C86_none n : random_time_count K 0 n = if 1 <? n then Raise ValueError else Ok [f0 K].
  Proof. unfold random_time_count. cbn [Nat.mul Nat.add]. destruct (1 <? n); reflexivity. Qed.
End Mean.
Print Assumptions C86_mean.
Print Assumptions C86_zero_refuted.
Print Assumptions C86_none.
(** Two frames of period 2: over the four outcomes the delays 1, 2, 3 occur 1, 2, 1 times *)
Example C86_holds : match random_time_count QcO 2 2 with Ok l => Some (map show l) | Raise _ => None end = Some [(4, 1); (3, 8); (1, 2); (1, 4); (0, 1)]%Z /\
  map (fun k => nsum [[0; 0]; [0; 1]; [1; 0]; [1; 1]] (fun r => pairs_at k (frame_times 2 r))) [0; 1; 2; 3; 4] = [8; 1; 2; 1; 0] /\
  map (fun r => frame_times 2 r) [[0; 0]; [1; 0]] = [[0; 2]; [1; 2]].
Proof. repeat split. Qed.
