(** What the streaming functions determine before the first frame. *)
From Verif Require Import Base Kernels PairSpec KernelProofs CoreModel FftModel NormModel CorrModel MultiModel MultiProofs StreamModel StreamBuffer StreamSpec.
From Coq Require Import String ZifyBool ZifyNat.
Open Scope string_scope.
Open Scope nat_scope.
Open Scope list_scope.
Local Notation length := List.length.
Set Implicit Arguments.

Lemma div_pow2_S n k : n / 2 ^ S k = n / 2 ^ k / 2.
Proof. rewrite Nat.div_div by (pose proof (pow_pos k); lia). f_equal. cbn [Nat.pow]. lia. Qed.

(** The default chunk size *)
Lemma halve_chunk_spec fuel : forall total level j, 0 < level -> total < 2 ^ (fuel + j) ->
  exists k, j <= k /\ halve_chunk fuel (total / 2 ^ j) level = total / 2 ^ k /\
    (j < k -> level <= total / 2 ^ k /\ 128 < total / 2 ^ (k - 1)) /\ ~ (level <= total / 2 ^ k / 2 /\ 128 < total / 2 ^ k).
Proof.
  induction fuel as [|fuel IH]; intros total level j HL HF; cbn [halve_chunk].
  - exists j. split; [lia|]. split; [reflexivity|]. split; [lia|]. rewrite (Nat.div_small total) by exact HF. lia.
  - destruct ((level <=? total / 2 ^ j / 2) && (128 <? total / 2 ^ j))%bool eqn:E.
    + rewrite <- div_pow2_S. destruct (IH total level (S j) HL) as (k & Hk & E1 & E2 & E3); [replace (fuel + S j) with (S fuel + j) by lia; exact HF|].
      exists k. split; [lia|]. split; [exact E1|]. split; [|exact E3]. intros _.
      destruct (Nat.eq_dec k (S j)) as [->|N]; [|apply E2; lia]. replace (S j - 1) with j by lia. rewrite div_pow2_S. lia.
    + exists j. split; [lia|]. split; [reflexivity|]. split; [lia|]. lia.
Qed.

Lemma default_chunk_ok chunk_size total level h : 0 < level -> 
  _default_chunk_size chunk_size total level = Ok h <-> chunk_of chunk_size total level h /\ level <= h <= total.
Proof.
  intros HL. unfold _default_chunk_size, chunk_of.
  assert (HD : exists k, halve_chunk total total level = total / 2 ^ k /\ (0 < k -> level <= total / 2 ^ k /\ 128 < total / 2 ^ (k - 1)) /\
    ~ (level <= total / 2 ^ k / 2 /\ 128 < total / 2 ^ k)).
  { destruct (@halve_chunk_spec total total level 0 HL) as (k & _ & E1 & E2 & E3); [rewrite Nat.add_0_r; apply Nat.pow_gt_lin_r; lia|].
    cbn [Nat.pow] in E1. rewrite Nat.div_1_r in E1. exists k. auto. }
  destruct (Nat.ltb_spec total level) as [H|H].
  - split; [discriminate|]. intros [_ H']. lia.
  - destruct chunk_size as [c|].
    + destruct (Nat.ltb_spec total c); [split; [discriminate|lia]|]. destruct (Nat.ltb_spec c level); [split; [discriminate|lia]|].
      split; [intros E; injection E as <-; lia|]. intros [-> _]. reflexivity.
    + destruct HD as (k & -> & E2 & E3).
      assert (total / 2 ^ k <= total) by (apply Nat.div_le_upper_bound; pose proof (pow_pos k); nia).
      assert (level <= total / 2 ^ k). { destruct k; [cbn [Nat.pow]; rewrite Nat.div_1_r; lia|]. apply E2. lia. }
      replace (total <? total / 2 ^ k) with false by lia. replace (total / 2 ^ k <? level) with false by lia.
      split.
      * intros E. injection E as <-. split; [exists k; auto|lia].
      * intros [(k' & -> & F2 & F3) _]. do 2 f_equal.
        assert (HM : forall a b, a <= b -> total / 2 ^ b <= total / 2 ^ a).
        { intros a b' Hab. apply Nat.div_le_compat_l. split; [apply pow_pos|apply Nat.pow_le_mono_r; lia]. }
        assert (HU : forall a b, a < b -> (0 < b -> level <= total / 2 ^ b /\ 128 < total / 2 ^ (b - 1)) -> ~ (level <= total / 2 ^ a / 2 /\ 128 < total / 2 ^ a) -> False).
        { intros a b' Hab P Q. apply Q. assert (Hb : 0 < b' /\ S a <= b' /\ a <= b' - 1) by (clear - Hab; lia). destruct Hb as (Hb & Hb1 & Hb2).
          destruct (P Hb) as [P1 P2]. rewrite <- div_pow2_S.
          pose proof (HM _ _ Hb1) as G1. pose proof (HM _ _ Hb2) as G2. revert P1 P2 G1 G2. generalize (total / 2 ^ S a), (total / 2 ^ a), (total / 2 ^ b'), (total / 2 ^ (b' - 1)). clear. intros. lia. }
        destruct (Nat.lt_trichotomy k k') as [Hlt|[->|Hlt]]; [exfalso; eapply HU; eassumption|reflexivity|exfalso; eapply HU; eassumption].
Qed.

(** The number of levels of the buffer *)
Lemma count_decades_spec fuel : forall total c j, 0 < c -> total < c * 2 ^ (fuel + j) -> (0 < j -> c * 2 ^ (j - 1) <= total) ->
  let d := count_decades fuel total c j in total < c * 2 ^ d /\ (0 < d -> c * 2 ^ (d - 1) <= total).
Proof.
  induction fuel as [|fuel IH]; intros total c j HC HF HJ; cbn [count_decades]; [split; [exact HF|exact HJ]|].
  assert (0 < c * 2 ^ j) by (pose proof (pow_pos j); nia).
  destruct (Nat.ltb_spec 0 (total / (c * 2 ^ j))) as [H1|H1].
  - apply IH; [exact HC|replace (fuel + S j) with (S fuel + j) by lia; exact HF|]. intros _. replace (S j - 1) with j by lia.
    pose proof (Nat.mul_div_le total (c * 2 ^ j) ltac:(lia)). nia.
  - split; [|exact HJ]. pose proof (proj1 (Nat.le_0_r _) H1) as E. apply Nat.div_small_iff in E; [exact E|lia].
Qed.
Lemma decades_spec total h : 0 < h -> h <= total ->
  let d := count_decades (S total) total (2 * h) 0 in h * 2 ^ d <= total < 2 * (h * 2 ^ d).
Proof.
  intros H0 HT. cbv zeta.
  destruct (@count_decades_spec (S total) total (2 * h) 0) as [E1 E2].
  - lia.
  - rewrite Nat.add_0_r. pose proof (Nat.pow_gt_lin_r 2 (S total) ltac:(lia)). nia.
  - lia.
  - set (d := count_decades (S total) total (2 * h) 0) in *. split; [|nia].
    destruct d as [|d]; [cbn [Nat.pow]; lia|]. specialize (E2 ltac:(lia)). cbn [Nat.sub] in E2. rewrite Nat.sub_0_r in E2. cbn [Nat.pow]. lia.
Qed.
Lemma decades_unique h total d d' : h * 2 ^ d <= total < 2 * (h * 2 ^ d) -> h * 2 ^ d' <= total < 2 * (h * 2 ^ d') -> d = d'.
Proof.
  intros H H'. assert (HU : forall a b, a < b -> h * 2 ^ b <= total -> total < 2 * (h * 2 ^ a) -> False).
  { intros a b Hab H1 H2. assert (2 ^ S a <= 2 ^ b) by (apply Nat.pow_le_mono_r; lia). cbn [Nat.pow] in H0. nia. }
  destruct (Nat.lt_trichotomy d d') as [Hlt|[->|Hlt]]; [exfalso; eapply HU; [exact Hlt|lia|lia]|reflexivity|exfalso; eapply HU; [exact Hlt|lia|lia]].
Qed.

(** The times *)
Lemma inspect_times_ok t1 t2 count len T1 T2 total :
  _inspect_t1_t2_count t1 t2 count len = Ok (T1, T2, total) <->
  match t1 with
  | Some t => T1 = t /\ total = match count with Some c => c | None => length t end
  | None => T1 = arange total /\ (count = Some total \/ (count = None /\ len = Some total))
  end /\ T2 = match t2 with Some t => t | None => T1 end /\ length T1 = length T2 /\ total <= length T1.
Proof.
  unfold _inspect_t1_t2_count.
  assert (HG : forall T c, (if length T <? c then Raise ValueError else if negb (length T =? length match t2 with Some t => t | None => T end) then Raise ValueError
      else Ok (T, match t2 with Some t => t | None => T end, c)) = Ok (T1, T2, total) <->
      T1 = T /\ total = c /\ T2 = match t2 with Some t => t | None => T1 end /\ length T1 = length T2 /\ total <= length T1).
  { intros T c. destruct (Nat.ltb_spec (length T) c) as [H|H]; [split; [discriminate|intros (-> & -> & _ & _ & H'); lia]|].
    destruct (Nat.eqb_spec (length T) (length match t2 with Some t => t | None => T end)) as [E|E]; cbn [negb].
    - split; [intros H'; injection H' as <- <- <-; auto|]. intros (-> & -> & -> & _). reflexivity.
    - split; [discriminate|]. intros (-> & -> & -> & H' & _). contradiction. }
  destruct t1 as [t|]; cbn [bind].
  - rewrite HG. tauto.
  - destruct count as [c|]; cbn [bind].
    + rewrite HG. split.
      * intros (-> & -> & H). split; [split; [reflexivity|left; reflexivity]|exact H].
      * intros ((-> & [E|[E _]]) & H); [injection E as ->|discriminate]. auto.
    + destruct len as [c|]; cbn [bind]; [|split; [discriminate|intros ((_ & [E|[_ E]]) & _); discriminate]].
      rewrite HG. split.
      * intros (-> & -> & H). split; [split; [reflexivity|right; auto]|exact H].
      * intros ((-> & [E|[_ E]]) & H); [discriminate|injection E as ->]. auto.
Qed.

Theorem setup_ok t1 t2 period level chunk_size binning method count len nlevel mode S0 : 0 < level ->
  stream_setup t1 t2 period (Some level) chunk_size binning method count len nlevel mode = Ok S0 <->
  exists T1 T2 total h D m bin,
    (mode = "full" \/ mode = "chunk") /\ _default_method_and_binning method binning = Ok (m, bin) /\
    stream_args t1 t2 level chunk_size count len T1 T2 total h D /\
    let top := count_levels (S (h * 2 ^ D)) (h * 2 ^ D) level 0 in
    match nlevel with
    | None => S0 = Build_setup m bin T1 T2 h level (period * level) D (h * 2 ^ D) (top - 1)
    | Some l => (0 <= l)%Z /\ 0 < top /\ S0 = Build_setup m bin T1 T2 h level (period * level) (Nat.min (Z.to_nat l + 1) top) (h * 2 ^ D) (Nat.min (Z.to_nat l) (top - 1))
    end.
Proof.
  intros HL. unfold stream_setup.
  assert (HM : negb (String.eqb mode "full" || String.eqb mode "chunk") = false <-> mode = "full" \/ mode = "chunk").
  { rewrite negb_false_iff, orb_true_iff, !String.eqb_eq. reflexivity. }
  destruct (negb (String.eqb mode "full" || String.eqb mode "chunk")) eqn:EM.
  { split; [discriminate|]. intros (T1 & T2 & total & h & D & m & bin & H & _). apply HM in H. discriminate. }
  assert (HMode : mode = "full" \/ mode = "chunk") by (apply HM; reflexivity). clear HM EM.
  destruct (_default_method_and_binning method binning) as [[m bin]|e]; cbn [bind];
    [|split; [discriminate|intros (T1 & T2 & total & h & D & m & bin & _ & H & _); discriminate]].
  destruct (_inspect_t1_t2_count t1 t2 count len) as [[[T1 T2] total]|e] eqn:EI; cbn [bind].
  2:{ split; [discriminate|]. intros (T1 & T2 & total & h & D & m' & bin' & _ & _ & (HA & HB & HC & HD & _) & _).
      assert (H : _inspect_t1_t2_count t1 t2 count len = Ok (T1, T2, total)) by (apply inspect_times_ok; auto). congruence. }
  pose proof (proj1 (inspect_times_ok t1 t2 count len T1 T2 total) EI) as (HA & HB & HC & HD).
  destruct (_default_chunk_size chunk_size total level) as [h|e] eqn:EC; cbn [bind].
  2:{ split; [discriminate|]. intros (T1' & T2' & total' & h & D & m' & bin' & _ & _ & (HA' & HB' & HC' & HD' & HE & HF & HG & _) & _).
      assert (H : _inspect_t1_t2_count t1 t2 count len = Ok (T1', T2', total')) by (apply inspect_times_ok; auto).
      rewrite EI in H. injection H as <- <- <-.
      assert (H' : _default_chunk_size chunk_size total level = Ok h) by (apply default_chunk_ok; auto; split; [exact HE|lia]). congruence. }
  pose proof (proj1 (default_chunk_ok chunk_size total h HL) EC) as (HE & HF).
  replace (h =? 0) with false by lia. cbv zeta.
  pose proof (decades_spec (total := total) (h := h) ltac:(lia) ltac:(lia)) as HDec. cbv zeta in HDec.
  set (d := count_decades (S total) total (2 * h) 0) in *.
  set (top := count_levels (S (h * 2 ^ d)) (h * 2 ^ d) level 0).
  assert (HS : stream_args t1 t2 level chunk_size count len T1 T2 total h d) by (unfold stream_args; repeat split; auto; lia).
  assert (HU : forall T1' T2' total' h' D', stream_args t1 t2 level chunk_size count len T1' T2' total' h' D' -> T1' = T1 /\ T2' = T2 /\ total' = total /\ h' = h /\ D' = d).
  { intros T1' T2' total' h' D' (HA' & HB' & HC' & HD' & HE' & HF' & HG' & HD'').
    assert (H : _inspect_t1_t2_count t1 t2 count len = Ok (T1', T2', total')) by (apply inspect_times_ok; auto).
    rewrite EI in H. injection H as <- <- <-.
    assert (H' : _default_chunk_size chunk_size total level = Ok h') by (apply default_chunk_ok; auto; split; [exact HE'|lia]).
    rewrite EC in H'. injection H' as <-. repeat split. symmetry. exact (@decades_unique h total d D' HDec HD''). }
  destruct nlevel as [l|].
  - destruct (Z.ltb_spec (Z.min (l + 1) (Z.of_nat top)) 1) as [Hlt|Hge]; cbn [bind].
    + split; [discriminate|]. intros (T1' & T2' & total' & h' & D' & m' & bin' & _ & _ & HS' & Hl & Htop & _).
      destruct (HU _ _ _ _ _ HS') as (-> & -> & -> & -> & ->). fold top in Htop. lia.
    + split.
      * intros E. injection E as <-. exists T1, T2, total, h, d, m, bin. split; [exact HMode|]. split; [reflexivity|]. split; [exact HS|]. cbv zeta. fold top.
        split; [lia|]. split; [lia|]. f_equal; lia.
      * intros (T1' & T2' & total' & h' & D' & m' & bin' & _ & Emb & HS' & Hl & Htop & ->). injection Emb as -> ->.
        destruct (HU _ _ _ _ _ HS') as (-> & -> & -> & -> & ->). fold top. do 2 f_equal; lia.
  - cbn [bind]. split.
    + intros E. injection E as <-. exists T1, T2, total, h, d, m, bin. split; [exact HMode|]. split; [reflexivity|]. split; [exact HS|]. reflexivity.
    + intros (T1' & T2' & total' & h' & D' & m' & bin' & _ & Emb & HS' & ->). injection Emb as -> ->.
      destruct (HU _ _ _ _ _ HS') as (-> & -> & -> & -> & ->). reflexivity.
Qed.
