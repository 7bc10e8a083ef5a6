(** The calls of ccorr and acorr made by the streaming functions are admissible. *)
From Verif Require Import Base Kernels PairSpec KernelProofs PairLemmas RegularProofs CoreModel FftModel FftProofs CoreProofs CoreProofs2 CoreProofs3 CoreApi
  NormModel CorrModel CorrSpec CorrProofs CorrProofs2 PairAcc PairTuple StreamModel CallPairs StreamSpec.
From Coq Require Import String ZifyBool ZifyNat.
Open Scope string_scope.
Open Scope nat_scope.
Open Scope list_scope.
Local Notation length := List.length.
Set Implicit Arguments.

Lemma map_snd_combine A B (f : list A) (t : list B) : length t = length f -> map snd (combine f t) = t.
Proof. revert t. induction f as [|x f IH]; intros [|y t] H; try discriminate; [reflexivity|]. cbn. rewrite IH; [reflexivity|]. cbn in H. lia. Qed.

Lemma sub_0 (l : list Z) : map (fun t => t - 0)%Z l = l.
Proof. rewrite <- (map_id l) at 2. apply map_ext. intros; lia. Qed.
Lemma samples_snd A (f : list A) : map snd (samples f None) = arange (length f).
Proof. cbn [samples]. unfold regular. apply map_snd_combine. apply arange_length. Qed.

Section Fits.
  Variable K : Fld.
  Notation C := (Cx K).
  Variable W : nat -> Cx K.

  (** One call: the method and the times *)
  Definition call_fits (m : string) (u v : list Z) (N : nat) : Prop := m = "corr" \/ m = "diff" \/ (m = "fft" /\ fft_fits W u v N).
  Definition all_roots : Prop := forall N, 0 < N -> is_root N (W N).

  Lemma fft_fits_ok A (v1 v2 : list (C * A)) u v N : length u = length v1 -> length v = length v2 -> fft_fits W u v N ->
    fft_ok W (map fst v1) (map fst v2) (Some u) (Some v) N.
  Proof.
    intros H1 H2 (E & D1 & D2 & L & HC & HR & HN). unfold fft_ok, distinct. cbn [samples].
    rewrite !map_snd_combine by (rewrite ?map_length; assumption).
    split; [destruct v1; [destruct u; [contradiction|discriminate]|discriminate]|]. split; [exact D1|]. split; [exact D2|].
    exists L. split; [|auto]. revert HC. apply (@covers_snd _ _ _ _ _ _ _ _ 0%Z); rewrite !map_snd_combine by (rewrite ?map_length; auto);
      symmetry; apply sub_0.
  Qed.
  Lemma fft_fits_ok_auto A (v : list (C * A)) u N : length u = length v -> fft_fits W u u N -> fft_ok_auto W (map fst v) (Some u) N.
  Proof. intros H HF. destruct (@fft_fits_ok A v v u u N H H HF) as (E & _ & _ & HL). split; [exact E|exact HL]. Qed.

  Lemma okc_times m (v1 v2 : list (C * K)) u v N : length u = length v1 -> length v = length v2 -> length v1 = length v2 -> v1 <> [] ->
    call_fits m u v N -> okc W m v1 v2 (Some u) (Some v) N.
  Proof.
    intros H1 H2 H3 H4 HF. split; [exact H4|]. split; [split; auto|]. split; [|discriminate].
    destruct HF as [->|[->|[-> HF]]]; [right; left; reflexivity|left; reflexivity|right; right]. split; [reflexivity|]. apply fft_fits_ok; auto.
  Qed.
  Lemma oka_times m (v : list (C * K)) u N : length u = length v -> v <> [] -> NoDup u -> call_fits m u u N -> oka W m v (Some u) N.
  Proof.
    intros H1 H2 HD HF. split; [exact H2|]. split; [split; auto|]. split; [unfold distinct; cbn [samples]; rewrite map_snd_combine; auto|]. split; [|discriminate].
    destruct HF as [->|[->|[-> HF]]]; [right; left; reflexivity|left; reflexivity|right; right]. split; [reflexivity|]. apply fft_fits_ok_auto; auto.
  Qed.

  Lemma NoDup_of_nat l : NoDup l -> NoDup (map Z.of_nat l).
  Proof. apply FinFun.Injective_map_NoDup. intros a b H. lia. Qed.
  (** Regular times of neighbouring chunks *)
  Lemma regular_fits h c c' N : all_roots -> 0 < h -> 0 < N <= h + 1 -> c <= c' + 1 -> c' <= c + 1 ->
    fft_fits W (map Z.of_nat (seq (c * h) h)) (map Z.of_nat (seq (c' * h) h)) N.
  Proof.
    intros HR Hh HN H1 H2. unfold fft_fits.
    split; [destruct h; [lia|discriminate]|]. split; [apply NoDup_of_nat, seq_NoDup|]. split; [apply NoDup_of_nat, seq_NoDup|].
    assert (HI : forall a p, In p (combine (map Z.of_nat (seq a h)) (map Z.of_nat (seq a h))) <-> exists k, a <= k < a + h /\ p = (Z.of_nat k, Z.of_nat k)).
    { intros a p. assert (E : combine (map Z.of_nat (seq a h)) (map Z.of_nat (seq a h)) = map (fun k => (Z.of_nat k, Z.of_nat k)) (seq a h)).
      { induction (seq a h) as [|x l IH]; [reflexivity|]. cbn. rewrite IH. reflexivity. }
      rewrite E, in_map_iff. split.
      - intros (k & <- & Hk). apply in_seq in Hk. exists k. auto.
      - intros (k & Hk & ->). exists k. split; [reflexivity|]. apply in_seq. exact Hk. }
    assert (HC : forall L a b, 0 < L -> (exists x y, c * h <= x < c * h + h /\ c' * h <= y < c' * h + h /\ x = a /\ y = b /\ (Z.abs (Z.of_nat y - Z.of_nat x) = Z.of_nat L - 1)%Z) ->
      (forall x y, c * h <= x < c * h + h -> c' * h <= y < c' * h + h -> (Z.abs (Z.of_nat y - Z.of_nat x) < Z.of_nat L)%Z) ->
      covers (combine (map Z.of_nat (seq (c * h) h)) (map Z.of_nat (seq (c * h) h))) (combine (map Z.of_nat (seq (c' * h) h)) (map Z.of_nat (seq (c' * h) h))) L).
    { intros L a b HL (x & y & Hx & Hy & _ & _ & E) H. split.
      - intros [p q] Hpq. apply in_prod_iff in Hpq. destruct Hpq as [Hp Hq]. apply HI in Hp. apply HI in Hq.
        destruct Hp as (k & Hk & ->), Hq as (k' & Hk' & ->). unfold delay. cbn [fst snd]. apply H; assumption.
      - exists ((Z.of_nat x, Z.of_nat x), (Z.of_nat y, Z.of_nat y)). split; [apply in_prod_iff; split; apply HI; eauto|exact E]. }
    assert (HE : c' = c \/ c' = c + 1 \/ c = c' + 1) by lia.
    destruct HE as [E|[E|E]]; subst.
    - exists h. split; [|split; [apply HR; lia|lia]]. apply (@HC h (c * h) (c * h + h - 1)); [lia| |intros; lia].
      exists (c * h), (c * h + h - 1). repeat split; lia.
    - exists (2 * h). split; [|split; [apply HR; lia|lia]]. apply (@HC (2 * h) (c * h) ((c + 1) * h + h - 1)); [lia| |intros; nia].
      exists (c * h), ((c + 1) * h + h - 1). repeat split; nia.
    - exists (2 * h). split; [|split; [apply HR; lia|lia]]. apply (@HC (2 * h) ((c' + 1) * h + h - 1) (c' * h)); [lia| |intros; nia].
      exists ((c' + 1) * h + h - 1), (c' * h). repeat split; nia.
  Qed.

  Lemma okc_none m (v1 v2 : list (C * K)) N : length v1 = length v2 -> v1 <> [] -> 0 < N <= length v1 + 1 ->
    m = "corr" \/ m = "diff" \/ (m = "fft" /\ all_roots) -> okc W m v1 v2 None None N.
  Proof.
    intros H1 H2 HN HM. split; [exact H2|]. split; [split; auto|]. split; [|intros _; lia].
    destruct HM as [->|[->|[-> HR]]]; [right; left; reflexivity|left; reflexivity|right; right]. split; [reflexivity|].
    assert (HN' : map fst v1 <> []) by (destruct v1; [contradiction|discriminate]).
    assert (HL : 0 < length v1) by (destruct v1; [contradiction|cbn; lia]).
    split; [exact HN'|]. unfold distinct. rewrite !samples_snd.
    assert (HA : forall n, NoDup (arange n)) by (intros n; apply NoDup_of_nat, seq_NoDup).
    split; [apply HA|]. split; [apply HA|]. exists (length v1). split; [|split; [apply HR; lia|lia]].
    replace (length v1) with (length (map fst v1)) by apply map_length. apply covers_regular; [rewrite !map_length; exact H1|exact HN'].
  Qed.
  Lemma oka_none m (v : list (C * K)) N : v <> [] -> 0 < N <= length v + 1 -> m = "corr" \/ m = "diff" \/ (m = "fft" /\ all_roots) -> oka W m v None N.
  Proof.
    intros H2 HN HM. destruct (@okc_none m v v N eq_refl H2 HN HM) as (_ & _ & HO & _).
    split; [exact H2|]. split; [exact I|]. split; [unfold distinct; rewrite samples_snd; apply NoDup_of_nat, seq_NoDup|]. split; [|intros _; lia].
    destruct HO as [HO|[HO|[HO (E & _ & _ & HL)]]]; [left; exact HO|right; left; exact HO|right; right; split; [exact HO|]]. split; [exact E|exact HL].
  Qed.
End Fits.
