(** C87: the delays met by the two cameras of the random triggering schemes. *)
From Verif Require Import Base SimModel SimProofs RandCountProofs SchemeProofs.
Set Implicit Arguments.
Local Open Scope nat_scope.

(** The number of pairs of frames, one of each camera, with the second k after the first *)
Definition pairs_of (k : Z) (t : list Z * list Z) : nat := length (filter (fun p => snd p - fst p =? k)%Z (list_prod (fst t) (snd t))).
(** What the generators draw in a call of create_random_times1 (two numbers per frame) and of
    create_random_times2 (three numbers per frame) *)
Definition draws1 (nframes n : nat) (s : list (nat * nat)) : Prop := length s = nframes /\ forall a, In a s -> fst a < n /\ snd a < 2.
Definition draws2 (nframes n : nat) (s : list (nat * nat * nat)) : Prop := length s = nframes /\ forall a, In a s -> fst (fst a) < n /\ snd (fst a) < 2 /\ snd a < 2 * n.
(** L lists every case once *)
Definition lists_all (A : Type) (P : A -> Prop) (L : list A) : Prop := NoDup L /\ forall s, In s L <-> P s.
(** The calls with the drawn numbers s *)
Definition run1 (nframes n : nat) (s : list (nat * nat)) : res (list Z * list Z) :=
  create_random_times1 nframes (Z.of_nat n) (fun i => Z.of_nat (fst (nth i s (0, 0)))) (fun i => Z.of_nat (snd (nth i s (0, 0)))).
Definition run2 (nframes n : nat) (s : list (nat * nat * nat)) : res (list Z * list Z) :=
  create_random_times2 nframes (Z.of_nat n) (fun i => Z.of_nat (fst (fst (nth i s (0, 0, 0))))) (fun i => Z.of_nat (snd (fst (nth i s (0, 0, 0))))) (fun i => Z.of_nat (snd (nth i s (0, 0, 0)))).

Lemma filter_nsum A (p : A -> bool) l : length (filter p l) = nsum l (fun x => ind (p x)).
Proof. induction l as [|x l IH]; [reflexivity|]. rewrite nsum_cons. cbn [filter]. destruct (p x); cbn [length ind]; rewrite IH; lia. Qed.
Lemma pairs_of_tab k nf f g : pairs_of k (map f (seq 0 nf), map g (seq 0 nf)) = nsum (seq 0 nf) (fun i => nsum (seq 0 nf) (fun j => ind (g j - f i =? k)%Z)).
Proof. unfold pairs_of. rewrite filter_nsum, nsum_pair. cbn [fst snd]. rewrite nsum_map. apply nsum_ext. intros i _. rewrite nsum_map. reflexivity. Qed.
Lemma list_prod_nodup A B (l : list A) (l' : list B) : NoDup l -> NoDup l' -> NoDup (list_prod l l').
Proof.
  intros H H'. induction H as [|x l Hx H IH]; [constructor|]. cbn [list_prod].
  assert (D : forall (l1 l2 : list (A * B)), NoDup l1 -> NoDup l2 -> (forall x, In x l1 -> ~ In x l2) -> NoDup (l1 ++ l2)).
  { induction l1 as [|a l1 IH1]; intros l2 H1 H2 H3; [exact H2|]. inversion H1; subst. cbn. constructor; [|apply IH1; auto; intros; apply H3; right; assumption]. rewrite in_app_iff. intros [E|E]; [auto|]. apply (H3 a (or_introl eq_refl) E). }
  apply D; [apply FinFun.Injective_map_NoDup; [intros a b E; congruence|exact H']|exact IH|]. intros [a b] Ha Hb. apply in_map_iff in Ha. destruct Ha as (y & E & _). injection E as -> ->. apply in_prod_iff in Hb. tauto.
Qed.
Lemma alphabet1_nodup n : NoDup (alphabet1 n).
Proof. apply list_prod_nodup; apply seq_NoDup. Qed.
Lemma alphabet2_nodup n : NoDup (alphabet2 n).
Proof. apply list_prod_nodup; [apply alphabet1_nodup|apply seq_NoDup]. Qed.
Lemma all1 nf n : lists_all (draws1 nf n) (seqs (alphabet1 n) nf).
Proof.
  split; [apply seqs_nodup, alphabet1_nodup|]. intros s. rewrite seqs_in. unfold draws1, alphabet1. split; intros [L B]; (split; [exact L|]); intros [a b] H; specialize (B _ H); rewrite in_prod_iff, !in_seq in *; cbn [fst snd] in *; lia.
Qed.
Lemma all2 nf n : lists_all (draws2 nf n) (seqs (alphabet2 n) nf).
Proof.
  split; [apply seqs_nodup, alphabet2_nodup|]. intros s. rewrite seqs_in. unfold draws2, alphabet2, alphabet1. split; intros [L B]; (split; [exact L|]); intros [[a b] c] H; specialize (B _ H); rewrite !in_prod_iff, !in_seq in *; cbn [fst snd] in *; lia.
Qed.
Lemma all_same A (P : A -> Prop) L L' : lists_all P L -> lists_all P L' -> Permutation L L'.
Proof. intros [D H] [D' H']. apply NoDup_Permutation; [exact D|exact D'|]. intros r. rewrite H, H'. reflexivity. Qed.
Lemma nsum_same A (l l' : list A) f : Permutation l l' -> nsum l f = nsum l' f.
Proof. induction 1; rewrite ?nsum_cons; try lia; reflexivity. Qed.

(** The times of a call *)
Lemma randints_tab n nf (f : nat -> nat) : 0 < n -> (forall i, i < nf -> f i < n) -> randints (Z.of_nat n) nf (fun i => Z.of_nat (f i)) = Ok (map (fun i => Z.of_nat (f i)) (seq 0 nf)).
Proof.
  intros Hn H. unfold randints. destruct (Z.ltb_spec 0 (Z.of_nat n)); [|lia]. f_equal. apply map_ext_in. intros i Hi. apply in_seq in Hi. apply Z.mod_small. specialize (H i). lia.
Qed.
Lemma combine_map_seq A B C (f : nat -> A) (g : nat -> B) (h : A * B -> C) nf : map h (combine (map f (seq 0 nf)) (map g (seq 0 nf))) = map (fun i => h (f i, g i)) (seq 0 nf).
Proof. generalize 0. induction nf as [|m IH]; intros i; [reflexivity|]. cbn [seq map combine]. f_equal. apply IH. Qed.
Lemma run1_tab nf n s : 0 < n -> draws1 nf n s ->
  run1 nf n s = Ok (map (fun i => first1 n i (nth i s (0, 0))) (seq 0 nf), map (fun j => second1 n j (nth j s (0, 0))) (seq 0 nf)).
Proof.
  intros Hn [L B]. unfold run1, create_random_times1. rewrite (@randints_tab n nf (fun i => fst (nth i s (0, 0)))) by (try exact Hn; intros i Hi; apply B, nth_In; lia). cbn [bind].
  destruct (Z.eqb_spec (2 * Z.of_nat n) 0); [lia|]. change (randints 2) with (randints (Z.of_nat 2)). rewrite (@randints_tab 2 nf (fun i => snd (nth i s (0, 0)))) by (try lia; intros i Hi; apply B, nth_In; lia). cbn [bind].
  do 2 f_equal; rewrite map_map, combine_map_seq; apply map_ext; intros i; cbn [fst snd]; unfold first1, second1.
  - replace (Z.of_nat n * 2 / (2 * Z.of_nat n))%Z with 1%Z. 2:{ rewrite (Z.mul_comm (Z.of_nat n)), Z.div_same by lia. reflexivity. } lia.
  - rewrite Z.div_mul by lia. lia.
Qed.
Lemma run2_tab nf n s : 0 < n -> draws2 nf n s ->
  run2 nf n s = Ok (map (fun i => Z.of_nat (2 * n * i + fst (fst (nth i s (0, 0, 0))))) (seq 0 nf), map (fun j => Z.of_nat (2 * n * j + place2 n (nth j s (0, 0, 0)))) (seq 0 nf)).
Proof.
  intros Hn [L B]. unfold run2, create_random_times2.
  assert (D : draws1 nf n (map fst s)). { split; [rewrite map_length; exact L|]. intros a Ha. apply in_map_iff in Ha. destruct Ha as (x & <- & Hx). specialize (B x Hx). tauto. }
  pose proof (run1_tab Hn D) as R. unfold run1 in R.
  assert (N : forall i, nth i (map fst s) (0, 0) = fst (nth i s (0, 0, 0))) by (intros i; apply (map_nth fst s (0, 0, 0))).
  assert (E : create_random_times1 nf (Z.of_nat n) (fun i => Z.of_nat (fst (fst (nth i s (0, 0, 0))))) (fun i => Z.of_nat (snd (fst (nth i s (0, 0, 0))))) =
    create_random_times1 nf (Z.of_nat n) (fun i => Z.of_nat (fst (nth i (map fst s) (0, 0)))) (fun i => Z.of_nat (snd (nth i (map fst s) (0, 0))))).
  { unfold create_random_times1, randints. do 2 (match goal with |- context [if ?b then _ else _] => destruct b end; try reflexivity; cbn [bind]).
    destruct (0 <? 2)%Z; [|reflexivity]. cbn [bind]. do 2 f_equal; f_equal; f_equal; f_equal; apply map_ext; intros i; rewrite N; reflexivity. }
  rewrite E, R. cbn [bind fst snd]. replace (2 * Z.of_nat n)%Z with (Z.of_nat (2 * n)) by lia. rewrite (@randints_tab (2 * n) nf (fun i => snd (nth i s (0, 0, 0)))) by (try lia; intros i Hi; apply B, nth_In; lia). cbn [bind].
  do 2 f_equal; [apply map_ext; intros i; unfold first1; rewrite N; reflexivity|].
  rewrite map_map.
  rewrite <- (map_id (combine (map (fun i => first1 n i (nth i (map fst s) (0, 0))) (seq 0 nf)) (map (fun j => second1 n j (nth j (map fst s) (0, 0))) (seq 0 nf)))).
  rewrite (combine_map_seq _ _ (fun x => x)). rewrite combine_map_seq. apply map_ext. intros j. cbn [fst snd]. unfold place2, first1, second1. rewrite N.
  destruct (Nat.eqb_spec (snd (nth j s (0, 0, 0))) 0) as [->|H]; [reflexivity|]. destruct (Z.eqb_spec (Z.of_nat (snd (nth j s (0, 0, 0)))) 0); [lia|reflexivity].
Qed.

(** Every call is one of these, and there are finitely many: (2 n) ^ nframes and (4 n^2) ^ nframes. *)
Theorem C87_outcomes nframes n : 0 < n ->
  (exists L, lists_all (draws1 nframes n) L /\ length L = (2 * n) ^ nframes) /\
  (exists L, lists_all (draws2 nframes n) L /\ length L = (4 * n * n) ^ nframes) /\
  (forall raw1 raw2, exists s, draws1 nframes n s /\ create_random_times1 nframes (Z.of_nat n) raw1 raw2 = run1 nframes n s) /\
  (forall raw1 raw2 raw3, exists s, draws2 nframes n s /\ create_random_times2 nframes (Z.of_nat n) raw1 raw2 raw3 = run2 nframes n s).
Proof.
  intros Hn.
  assert (M : forall m (raw : nat -> Z), 0 < m -> forall i, Z.to_nat (raw i mod Z.of_nat m) < m) by (intros m raw Hm i; pose proof (Z.mod_pos_bound (raw i) (Z.of_nat m) ltac:(lia)); lia).
  assert (R : forall m (raw raw' : nat -> Z), 0 < m -> (forall i, i < nframes -> raw' i = Z.of_nat (Z.to_nat (raw i mod Z.of_nat m))) -> randints (Z.of_nat m) nframes raw = randints (Z.of_nat m) nframes raw').
  { intros m raw raw' Hm H. unfold randints. destruct (0 <? Z.of_nat m)%Z; [|reflexivity]. f_equal. apply map_ext_in. intros i Hi. apply in_seq in Hi. rewrite H by lia. pose proof (Z.mod_pos_bound (raw i) (Z.of_nat m) ltac:(lia)). rewrite Z2Nat.id by lia. rewrite Z.mod_mod by lia. reflexivity. }
  assert (T : forall A (f : nat -> A) d i, i < nframes -> nth i (map f (seq 0 nframes)) d = f i).
  { intros A f d i Hi. rewrite (nth_indep _ d (f 0)) by (rewrite map_length, seq_length; lia). rewrite map_nth, seq_nth by lia. reflexivity. }
  split; [exists (seqs (alphabet1 n) nframes); split; [apply all1|]; rewrite seqs_length, alphabet1_length; reflexivity|].
  split; [exists (seqs (alphabet2 n) nframes); split; [apply all2|]; rewrite seqs_length, alphabet2_length; f_equal; lia|]. split.
  - intros raw1 raw2. exists (map (fun i => (Z.to_nat (raw1 i mod Z.of_nat n), Z.to_nat (raw2 i mod Z.of_nat 2))) (seq 0 nframes)). split.
    + split; [rewrite map_length, seq_length; reflexivity|]. intros a Ha. apply in_map_iff in Ha. destruct Ha as (i & <- & _). cbn [fst snd]. split; apply M; lia.
    + unfold run1, create_random_times1. rewrite (R n raw1 (fun i => Z.of_nat (fst (nth i (map (fun i => (Z.to_nat (raw1 i mod Z.of_nat n), Z.to_nat (raw2 i mod Z.of_nat 2))) (seq 0 nframes)) (0, 0))))) by (try exact Hn; intros i Hi; rewrite T by exact Hi; reflexivity).
      change (randints 2) with (randints (Z.of_nat 2)). rewrite (R 2 raw2 (fun i => Z.of_nat (snd (nth i (map (fun i => (Z.to_nat (raw1 i mod Z.of_nat n), Z.to_nat (raw2 i mod Z.of_nat 2))) (seq 0 nframes)) (0, 0))))) by (try lia; intros i Hi; rewrite T by exact Hi; reflexivity). reflexivity.
  - intros raw1 raw2 raw3. set (s := map (fun i => (Z.to_nat (raw1 i mod Z.of_nat n), Z.to_nat (raw2 i mod Z.of_nat 2), Z.to_nat (raw3 i mod Z.of_nat (2 * n)))) (seq 0 nframes)). exists s. split.
    + split; [unfold s; rewrite map_length, seq_length; reflexivity|]. intros a Ha. apply in_map_iff in Ha. destruct Ha as (i & <- & _). cbn [fst snd]. repeat split; apply M; lia.
    + unfold run2, create_random_times2, create_random_times1. rewrite (R n raw1 (fun i => Z.of_nat (fst (fst (nth i s (0, 0, 0)))))) by (try exact Hn; intros i Hi; unfold s; rewrite T by exact Hi; reflexivity).
      change (randints 2) with (randints (Z.of_nat 2)). rewrite (R 2 raw2 (fun i => Z.of_nat (snd (fst (nth i s (0, 0, 0)))))) by (try lia; intros i Hi; unfold s; rewrite T by exact Hi; reflexivity).
      replace (2 * Z.of_nat n)%Z with (Z.of_nat (2 * n)) by lia. rewrite (R (2 * n) raw3 (fun i => Z.of_nat (snd (nth i s (0, 0, 0))))) by (try lia; intros i Hi; unfold s; rewrite T by exact Hi; reflexivity). reflexivity.
Qed.
Print Assumptions C87_outcomes.

(** In the first scheme every delay k = 2 n q + d with -n < d <= n is met by (nframes - |q|) / (2 n)
    pairs in the mean: within each period all delays are equally frequent. *)
Theorem C87_uniform nframes n L q d : 0 < n -> lists_all (draws1 nframes n) L -> (- Z.of_nat n < d <= Z.of_nat n)%Z ->
  exists t, (forall s, In s L -> run1 nframes n s = Ok (t s)) /\
    2 * n * nsum L (fun s => pairs_of (2 * Z.of_nat n * q + d) (t s)) = length L * (nframes - Z.abs_nat q).
Proof.
  intros Hn HL Hd. exists (fun s => (map (fun i => first1 n i (nth i s (0, 0))) (seq 0 nframes), map (fun j => second1 n j (nth j s (0, 0))) (seq 0 nframes))). split.
  - intros s Hs. apply run1_tab; [exact Hn|]. apply HL. exact Hs.
  - pose proof (all_same HL (all1 nframes n)) as P. rewrite (nsum_same _ P), (Permutation_length P), seqs_length, alphabet1_length. rewrite <- (@scheme1 n nframes q d Hn Hd). f_equal. apply nsum_ext. intros s _. rewrite pairs_of_tab. reflexivity.
Qed.
Print Assumptions C87_uniform.
(** In the second scheme the delay zero is met (4 n - 1) / (2 n - 1) times as often as the other delays
    of the first period.  In the other periods the delays are not equally frequent: those next to a
    multiple of the period are met more often, by 2 (n - |d|) in n (2 n - 1). *)
Theorem C87_zero nframes n L q d : 0 < n -> lists_all (draws2 nframes n) L -> (- Z.of_nat n < d <= Z.of_nat n)%Z ->
  exists t, (forall s, In s L -> run2 nframes n s = Ok (t s)) /\
    4 * n * n * n * nsum L (fun s => pairs_of (2 * Z.of_nat n * q + d) (t s)) =
    length L * ((nframes - Z.abs_nat q) * (n * (2 * n - 1) + if (q =? 0)%Z then (if (d =? 0)%Z then 2 * n * n else 0) else 2 * (n - Z.abs_nat d))).
Proof.
  intros Hn HL Hd. exists (fun s => (map (fun i => Z.of_nat (2 * n * i + fst (fst (nth i s (0, 0, 0))))) (seq 0 nframes), map (fun j => Z.of_nat (2 * n * j + place2 n (nth j s (0, 0, 0)))) (seq 0 nframes))). split.
  - intros s Hs. apply run2_tab; [exact Hn|]. apply HL. exact Hs.
  - pose proof (all_same HL (all2 nframes n)) as P. rewrite (nsum_same _ P), (Permutation_length P), seqs_length, alphabet2_length. rewrite <- (@scheme2 n nframes q d Hn Hd). f_equal. apply nsum_ext. intros s _. rewrite pairs_of_tab. reflexivity.
Qed.
Print Assumptions C87_zero.
(** Two frames of half-period 2: the delays -5 .. 6 over the sixteen outcomes of the first scheme (16 * (2 - |q|) / 4) *)
Definition cases : list (list (nat * nat)) := [[(0, 0); (0, 0)]; [(0, 0); (0, 1)]; [(0, 0); (1, 0)]; [(0, 0); (1, 1)]; [(0, 1); (0, 0)]; [(0, 1); (0, 1)]; [(0, 1); (1, 0)]; [(0, 1); (1, 1)];
  [(1, 0); (0, 0)]; [(1, 0); (0, 1)]; [(1, 0); (1, 0)]; [(1, 0); (1, 1)]; [(1, 1); (0, 0)]; [(1, 1); (0, 1)]; [(1, 1); (1, 0)]; [(1, 1); (1, 1)]].
Example C87_holds : map (fun k => nsum cases (fun s => match run1 2 2 s with Ok t => pairs_of k t | Raise _ => 0 end)) [-6; -5; -4; -3; -2; -1; 0; 1; 2; 3; 4; 5; 6; 7]%Z = [0; 4; 4; 4; 4; 8; 8; 8; 8; 4; 4; 4; 4; 0] /\
  run2 2 2 [(1, 1, 0); (1, 0, 3)] = Ok ([1; 5], [1; 4])%Z.
Proof. split; reflexivity. Qed.
