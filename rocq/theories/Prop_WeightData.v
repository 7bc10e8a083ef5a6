(** C78: weight_prime_from_data, norm.py 314-362, and monotone data in denoise. *)
From Coq Require Import Reals Lra Lia String.
From Verif Require Import Base KernelProofs Ordered FftReals Prop_AvgReals Prop_SectorReals AvgModel AvgProofs AvgProofs2 AvgProofs3 NormModel WeightModel NoiseModel Prop_Noise Prop_Weight.
Open Scope string_scope.
Open Scope nat_scope.
Open Scope list_scope.
Local Notation length := List.length.
Set Implicit Arguments.

(** denoise keeps rising data rising and falling data falling, and leaves data on a straight line alone. *)
Theorem C69_monotone junk n (x r : list R) : denoise RO junk n x = Ok r ->
  (rising_data x -> rising_data r) /\ (falling_data x -> falling_data r) /\
  (forall a b, (forall k, k < length x -> (nth k x 0 = a + b * INR k)%R) -> r = x).
Proof.
  intros H. assert (E : r = passes RO n x \/ r = x).
  { destruct (le_lt_dec (length x) 2) as [L|L].
    - rewrite (@denoise_short RO junk n x L) in H. destruct n; [injection H as <-; right; reflexivity|discriminate].
    - rewrite (@denoise_ok RO junk n x L) in H. injection H as <-. left. reflexivity. }
  destruct E as [-> | ->]; (split; [|split]); try (intros HH; exact HH); try reflexivity.
  - apply passes_rising. - apply passes_falling. - intros a b HL. apply (@passes_line n x a b). exact HL.
Qed.
Print Assumptions C69_monotone.

Local Ltac rlia := change (@List.length (fcar (ofld RO))) with (@List.length R) in *; lia.
Lemma ok_eq A (x y : A) : Ok x = Ok y -> x = y.
Proof. intros H. injection H. auto. Qed.
Lemma clip_R lo hi x : (lo <= hi)%R -> (lo <= clip RO lo hi x <= hi)%R.
Proof. intros H. destruct (@clip_in RO x lo hi) as [H1 H2]; [apply RO_le; exact H|]. split; apply RO_le; assumption. Qed.
Lemma clip_mono lo hi x y : (lo <= hi)%R -> (x <= y)%R -> (clip RO lo hi x <= clip RO lo hi y)%R.
Proof.
  intros H Hxy. unfold clip, fmin, fmax.
  destruct (flt RO x lo) eqn:E1; destruct (flt RO y lo) eqn:E2; try apply RO_lt in E1; try apply RO_lt in E2; try apply rlt_false in E1; try apply rlt_false in E2;
  repeat match goal with |- context[flt RO ?a ?b] => let E := fresh "E" in destruct (flt RO a b) eqn:E; [apply RO_lt in E|apply rlt_false in E] end; lra.
Qed.
Lemma nth_map_R (f : R -> R) l k : k < @length R l -> nth k (map f l) 0%R = f (nth k l 0%R).
Proof. intros H. rewrite (@nth_indep _ _ _ 0%R (f 0%R)) by (rewrite map_length; exact H). apply map_nth. Qed.

Lemma in_firstn_S A (l : list A) k x : In x (firstn k l) -> In x (firstn (S k) l).
Proof. intros H. rewrite <- (firstn_skipn k (firstn (S k) l)). rewrite firstn_firstn. replace (Nat.min k (S k)) with k by rlia. apply in_or_app. left. exact H. Qed.
Lemma least_unique (K : OFld) (a b : option K) l : least K a l -> least K b l -> a = b.
Proof.
  destruct a as [a|], b as [b|]; cbn [least]; intros HA HB.
  - f_equal. apply (@fle_antisym K); [apply HA, HB|apply HB, HA].
  - destruct HA as [HA _]. specialize (HB _ HA). discriminate.
  - destruct HB as [HB _]. specialize (HA _ HB). discriminate.
  - reflexivity.
Qed.
Lemma nth_in_firstn A (l : list A) d k : k < length l -> In (nth k l d) (firstn (S k) l).
Proof. revert k. induction l as [|x l IH]; intros k H; [cbn in H; lia|]. destruct k as [|k]; [left; reflexivity|]. right. apply IH. cbn in H. lia. Qed.
(** What decreasing gives in a fresh array: numbers that fall. *)
Lemma decreasing_falls (x out : list R) : length out = length x ->
  let r : list R := map (number RO) (decreasing RO false (map Some x) (map Some out)) in length r = length x /\ falling_data r.
Proof.
  intros HL r. destruct (@decreasing_ok RO false (map Some x) (map Some out)) as [L H]; [rewrite !map_length; exact HL|discriminate|]. rewrite map_length in L, H.
  assert (Lr : length r = length x) by (unfold r; rewrite map_length; exact L). split; [exact Lr|].
  assert (V : forall k, k < length x -> exists m, nth k (decreasing RO false (map Some x) (map Some out)) None = Some m /\ @nth R k r 0%R = m).
  { intros k Hk. specialize (H k Hk). assert (N : nth k r 0%R = number RO (nth k (decreasing RO false (map Some x) (map Some out)) None)).
    { unfold r. rewrite (@nth_indep _ _ _ 0%R (number RO None)) by (rewrite map_length; rlia). apply (map_nth (number RO)). }
    destruct (nth k (decreasing RO false (map Some x) (map Some out)) None) as [m|]; [exists m; split; [reflexivity|exact N]|].
    cbn [least] in H. destruct x as [|x0 x]; [cbn in Hk; rlia|]. specialize (H (Some x0)). cbn in H. discriminate H. left. reflexivity. }
  intros k Hk. change (S k < length r) in Hk. rewrite Lr in Hk. destruct (V k ltac:(rlia)) as (m & E1 & ->). destruct (V (S k) ltac:(rlia)) as (m' & E2 & ->).
  pose proof (H k ltac:(rlia)) as H1. pose proof (H (S k) ltac:(rlia)) as H2. rewrite E1 in H1. rewrite E2 in H2. cbn [least] in H1, H2. apply RO_le. apply H2. destruct H1 as [H1 _].
  apply in_firstn_S. exact H1.
Qed.

Lemma denoise_R junk n (x : list R) : 2 < @length R x -> denoise RO junk n x = Ok (passes RO n x).
Proof. intros H. exact (@denoise_ok RO junk n x H). Qed.

(** Correlation data with the filter: whatever the data and the contents of the allocated memory, the weights are
    those of a correlation function that falls and stays between 0 and 1, the same for every memory.
    Where that function g and the noise satisfy g^2 <= 1 - delta^2 the weight is optimal. *)
Theorem C78_corr (corr : list R) (bg1 bg2 : Cx RF) (delta sf : R) : 2 < length corr -> (0 < sf)%R ->
  exists g, length g = length corr /\ falling_data g /\ (forall x, In x g -> 0 <= x <= 1)%R /\
    (forall junk junk' out, length out = length corr ->
       weight_prime_from_data junk junk' out corr bg1 bg2 delta sf "corr" true = Ok (map (fun x => weight_prime_from_g (x, 0%R) delta bg1 bg2) g)) /\
    (forall x w, In x g -> (x * x <= 1 - delta * delta)%R ->
       (sigma_prime_weighted_sq (weight_prime_from_g (x, 0%R) delta bg1 bg2) (x, 0%R) delta bg1 bg2 <= sigma_prime_weighted_sq w (x, 0%R) delta bg1 bg2)%R).
Proof.
  intros HL HS.
  set (c1 := passes RO 3 corr). assert (L1 : length c1 = length corr) by apply passes_len.
  set (c2 := fun out => map (number RO) (decreasing RO false (map Some c1) (map Some out))).
  assert (D : forall out, length out = length corr -> length (c2 out) = length corr /\ falling_data (c2 out)).
  { intros out Ho. destruct (@decreasing_falls c1 out (eq_trans Ho (eq_sym L1))) as [A B]. split; [exact (eq_trans A L1)|exact B]. }
  assert (Same : forall out, length out = length corr -> c2 out = c2 corr).
  { intros out Ho. unfold c2. f_equal. apply (@list_nth_ext _ _ _ None).
    - destruct (@decreasing_ok RO false (map Some c1) (map Some out)) as [A _]; [rewrite !map_length; exact (eq_trans Ho (eq_sym L1))|discriminate|]. destruct (@decreasing_ok RO false (map Some c1) (map Some corr)) as [B _]; [rewrite !map_length; exact (eq_sym L1)|discriminate|]. exact (eq_trans A (eq_sym B)).
    - intros k Hk. destruct (@decreasing_ok RO false (map Some c1) (map Some out)) as [A A']; [rewrite !map_length; exact (eq_trans Ho (eq_sym L1))|discriminate|]. destruct (@decreasing_ok RO false (map Some c1) (map Some corr)) as [B B']; [rewrite !map_length; exact (eq_sym L1)|discriminate|].
      rewrite A in Hk. exact (@least_unique RO _ _ _ (A' k Hk) (B' k Hk)). }
  set (c3 := map (clip RO 0%R sf) (c2 corr)). assert (L3 : length c3 = length corr) by (unfold c3; rewrite map_length; apply D; reflexivity).
  assert (F3 : falling_data c3).
  { intros k Hk. change (S k < length c3) in Hk. rewrite L3 in Hk. destruct (D corr eq_refl) as [A B]. unfold c3. rewrite !(@nth_map_R (clip RO 0%R sf)) by rlia. apply clip_mono; [lra|]. apply B. change (S k < length (c2 corr)). lia. }
  assert (B3 : forall x, In x c3 -> (0 <= x <= sf)%R). { intros x Hx. unfold c3 in Hx. apply in_map_iff in Hx. destruct Hx as (y & <- & _). apply clip_R. lra. }
  set (c4 := passes RO 3 c3). assert (L4 : length c4 = length corr) by (transitivity (length c3); [apply passes_len|exact L3]).
  assert (F4 : falling_data c4) by (apply passes_falling; exact F3).
  assert (B4 : forall x, In x c4 -> (0 <= x <= sf)%R).
  { intros x Hx. destruct (@passes_between RO 3 0%R sf c3) with (y := x) as [P1 P2]; [|exact Hx|split; apply RO_le; assumption]. intros y Hy. destruct (B3 y Hy). split; apply RO_le; assumption. }
  exists (map (fun x => x / sf)%R c4). split; [rewrite map_length; exact L4|]. split; [|split; [|split]].
  - intros k Hk. change (S k < length (map (fun x => x / sf)%R c4)) in Hk. rewrite map_length in Hk. rewrite !(@nth_map_R (fun x => x / sf)%R) by rlia. apply Rmult_le_compat_r; [left; apply Rinv_0_lt_compat; exact HS|]. apply F4. exact Hk.
  - intros x Hx. apply in_map_iff in Hx. destruct Hx as (y & <- & Hy). destruct (B4 y Hy) as [P1 P2]. split.
    + apply Rmult_le_pos; [exact P1|left; apply Rinv_0_lt_compat; exact HS].
    + apply (Rmult_le_reg_r sf); [exact HS|]. field_simplify; lra.
  - intros junk junk' out Ho. unfold weight_prime_from_data. cbn [String.eqb Ascii.eqb Bool.eqb]. rewrite denoise_R by exact HL. cbn [bind]. fold c1. change (map (number RO) (decreasing RO false (map Some c1) (map Some out))) with (c2 out).
    rewrite (Same out Ho). fold c3. rewrite denoise_R by (change (2 < length c3); rlia). cbn [bind]. reflexivity.
  - intros x w _ Hx. apply (@C66_minimizes w (x, 0%R) delta bg1 bg2). cbn [cre cim fst snd]. lra.
Qed.
Print Assumptions C78_corr.

(** Difference data with the filter: the first weight does not depend on the data but
    on what was in the memory allocated by increasing. *)
Theorem C78_diff_first junk junk' (out corr : list R) (bg1 bg2 : Cx RF) (delta sf : R) r : length out = length corr ->
  weight_prime_from_data junk junk' out corr bg1 bg2 delta sf "diff" true = Ok r ->
  nth 0 r 0%R = weight_prime_from_d ((clip RO 0%R (sf * 2) (nth 0 out 0) / sf)%R, 0%R) delta bg1 bg2.
Proof.
  intros HO H. destruct (le_lt_dec (length corr) 2) as [L|L].
  - unfold weight_prime_from_data in H. cbn [String.eqb Ascii.eqb Bool.eqb] in H. rewrite (@denoise_short RO junk 3 corr L) in H. discriminate.
  - unfold weight_prime_from_data in H. cbn [String.eqb Ascii.eqb Bool.eqb] in H. rewrite denoise_R in H by exact L. cbn [bind] in H.
    set (c1 := passes RO 3 corr) in *. assert (L1 : length c1 = length corr) by apply passes_len.
    destruct (@increasing_ok RO false (map Some c1) (map Some out)) as (A & B & _); [rewrite !map_length; exact (eq_trans HO (eq_sym L1))|discriminate|]. rewrite map_length in A.
    set (c2 := increasing RO false (map Some c1) (map Some out)) in *. set (c3 := map (clip RO 0%R (sf * 2)%R) (map (number RO) c2)) in *.
    assert (L3 : length c3 = length corr) by (unfold c3; rewrite !map_length; exact (eq_trans A L1)).
    rewrite denoise_R in H by (change (2 < length c3); rlia). cbn [bind] in H. apply ok_eq in H. subst r.
    destruct c2 as [|o c2']; [exfalso; assert (A' := eq_trans A L1); change (0 = length corr) in A'; lia|]. destruct out as [|o0 out']; [exfalso; change (0 = length corr) in HO; lia|]. cbn [nth map] in B. subst o. cbn [nth].
    destruct (@passes_ends RO 3 c3) as [E _]. destruct (passes RO 3 c3) as [|p ps] eqn:Ep.
    + pose proof (passes_len 3 c3) as PL. exfalso. rewrite Ep in PL. assert (PL' := eq_trans PL L3). change (0 = length corr) in PL'. lia.
    + cbn [map nth]. cbn [nth] in E. subst p. reflexivity.
Qed.
Print Assumptions C78_diff_first.
Theorem C78_diff_refuted junk junk' : exists (corr out out' : list R) r r', length out = length corr /\ length out' = length corr /\
  weight_prime_from_data junk junk' out corr (0, 0)%R (0, 0)%R 0 1 "diff" true = Ok r /\
  weight_prime_from_data junk junk' out' corr (0, 0)%R (0, 0)%R 0 1 "diff" true = Ok r' /\ nth 0 r 0%R = 1%R /\ nth 0 r' 0%R = 0%R.
Proof.
  assert (T : forall out, length out = 3 -> exists r, weight_prime_from_data junk junk' out [1; 1; 1]%R (0, 0)%R (0, 0)%R 0 1 "diff" true = Ok r).
  { intros out Ho. unfold weight_prime_from_data. cbn [String.eqb Ascii.eqb Bool.eqb]. rewrite denoise_R by (cbn; rlia). cbn [bind].
    set (c1 := passes RO 3 [1; 1; 1]%R). assert (L1 : length c1 = 3) by apply (passes_len 3 [1; 1; 1]%R).
    destruct (@increasing_ok RO false (map Some c1) (map Some out)) as (A & _ & _); [rewrite !map_length; exact (eq_trans Ho (eq_sym L1))|discriminate|]. rewrite map_length in A.
    rewrite denoise_R; [cbn [bind]; eexists; reflexivity|]. rewrite !map_length. change (2 < length (increasing RO false (map Some c1) (map Some out))). rewrite A. change (2 < length c1). lia. }
  destruct (T [0; 0; 0]%R eq_refl) as [r Hr]. destruct (T [2; 0; 0]%R eq_refl) as [r' Hr'].
  exists [1; 1; 1]%R, [0; 0; 0]%R, [2; 0; 0]%R, r, r'. split; [reflexivity|]. split; [reflexivity|]. split; [exact Hr|]. split; [exact Hr'|].
  apply C78_diff_first in Hr, Hr'; try reflexivity. cbn [nth] in Hr, Hr'. rewrite Hr, Hr'.
  rewrite (@clip_id RO 0%R 0%R (1 * 2)%R) by (apply RO_le; lra). rewrite (@clip_id RO 2%R 0%R (1 * 2)%R) by (apply RO_le; lra).
  unfold weight_prime_from_d, weight_prime_from_g, bg_s, bg_r, bg_i. cbn [cre cim fst snd]. split; field_simplify; try lra.
Qed.
Print Assumptions C78_diff_refuted.

(** Without the filter the weights are those of the data; data too short for the
    filter and other modes are refused. *)
Theorem C78_unfiltered junk junk' out corr bg1 bg2 delta sf :
  weight_prime_from_data junk junk' out corr bg1 bg2 delta sf "corr" false = Ok (map (fun c => weight_prime_from_g ((c / sf)%R, 0%R) delta bg1 bg2) corr) /\
  weight_prime_from_data junk junk' out corr bg1 bg2 delta sf "diff" false = Ok (map (fun d => weight_prime_from_g ((1 - d / sf / 2)%R, 0%R) delta bg1 bg2) corr) /\
  (length corr <= 2 -> forall mode, mode = "corr" \/ mode = "diff" -> weight_prime_from_data junk junk' out corr bg1 bg2 delta sf mode true = Raise AssertionError) /\
  (forall mode pre_filter, mode <> "corr" -> mode <> "diff" -> weight_prime_from_data junk junk' out corr bg1 bg2 delta sf mode pre_filter = Raise ValueError).
Proof.
  split; [|split; [|split]].
  - unfold weight_prime_from_data. cbn [String.eqb Ascii.eqb Bool.eqb bind]. rewrite map_map. reflexivity.
  - unfold weight_prime_from_data. cbn [String.eqb Ascii.eqb Bool.eqb bind]. rewrite map_map. f_equal. apply map_ext. intros d. unfold weight_prime_from_d. cbn [cre cim fst snd]. do 2 f_equal. lra.
  - intros HL mode [-> | ->]; unfold weight_prime_from_data; cbn [String.eqb Ascii.eqb Bool.eqb]; rewrite (@denoise_short RO junk 3 corr HL); reflexivity.
  - intros mode pre M1 M2. apply String.eqb_neq in M1, M2. unfold weight_prime_from_data. rewrite M1, M2. reflexivity.
Qed.
Print Assumptions C78_unfiltered.
(** Data on a line that falls from the scale factor or less and stays above zero passes the filter
    unchanged. *)
Theorem C78_line junk junk' out corr bg1 bg2 delta sf a b : 2 < length corr -> length out = length corr -> (b <= 0)%R ->
  (forall k, k < length corr -> (nth k corr 0 = a + b * INR k)%R) -> (forall x, In x corr -> 0 <= x <= sf)%R ->
  weight_prime_from_data junk junk' out corr bg1 bg2 delta sf "corr" true = weight_prime_from_data junk junk' out corr bg1 bg2 delta sf "corr" false.
Proof.
  intros HL HO Hb Hc Hr. unfold weight_prime_from_data. cbn [String.eqb Ascii.eqb Bool.eqb]. rewrite denoise_R by exact HL. cbn [bind]. rewrite (@passes_line 3 corr a b Hc).
  assert (E : map (number RO) (decreasing RO false (map Some corr) (map Some out)) = corr).
  { destruct (@decreasing_ok RO false (map Some corr) (map Some out)) as [A B]; [rewrite !map_length; exact HO|discriminate|]. rewrite map_length in A, B.
    apply (@list_nth_ext _ _ _ 0%R); [rewrite map_length; exact A|]. intros k Hk. rewrite map_length, A in Hk. rewrite (@nth_indep _ _ _ 0%R (number RO None)) by (rewrite map_length; change (k < length (decreasing RO false (map Some corr) (map Some out))); rewrite A; exact Hk). rewrite (map_nth (number RO)).
    specialize (B k Hk). assert (S1 : In (Some (nth k corr 0%R)) (firstn (S k) (map Some corr))).
    { replace (Some (nth k corr 0%R)) with (nth k (map Some corr) (Some 0%R)) by apply (map_nth Some). apply nth_in_firstn. rewrite map_length. exact Hk. }
    destruct (nth k (decreasing RO false (map Some corr) (map Some out)) None) as [m|]; [|specialize (B _ S1); discriminate]. cbn [number]. cbn [least] in B. destruct B as [B1 B2]. apply B2 in S1. apply RO_le in S1.
    apply Rle_antisym; [exact S1|]. assert (B3 : In (Some m) (map Some (firstn (S k) corr))) by (rewrite <- firstn_map; exact B1). apply in_map_iff in B3. destruct B3 as (m' & E & B3). injection E as ->.
    apply (@In_nth _ _ _ 0%R) in B3. destruct B3 as (j & Hj & <-). rewrite firstn_length in Hj. assert (Hj' : j < S k /\ j < length corr) by (rlia). rewrite <- (firstn_skipn (S k) corr) at 1. rewrite (app_nth1 (firstn (S k) corr)) by (rewrite firstn_length; rlia).
    assert (N : forall i, i < S k -> nth i (firstn (S k) corr) 0%R = nth i corr 0%R). { intros i Hi. rewrite <- (firstn_skipn (S k) corr) at 2. rewrite app_nth1; [reflexivity|]. rewrite firstn_length. rlia. }
    rewrite !N by rlia. rewrite !Hc by rlia. assert (INR j <= INR k)%R by (apply le_INR; rlia). nra. }
  match goal with |- context[denoise RO junk' 3 (map (clip RO 0%R sf) ?m)] => replace (map (clip RO 0%R sf) m) with corr end.
  - rewrite denoise_R by exact HL. rewrite (@passes_line 3 corr a b Hc). reflexivity.
  - symmetry. etransitivity; [apply f_equal; exact E|]. rewrite <- (map_id corr) at 2. apply map_ext_in. intros x Hx. destruct (Hr x Hx). apply (@clip_id RO); apply RO_le; assumption.
Qed.
Print Assumptions C78_line.
(** Three delays of a correlation function that falls from 1 to 0, equal backgrounds of strength 1: the filter changes nothing. *)
Example C78_example junk junk' out : length out = 3 ->
  weight_prime_from_data junk junk' out [1; 1 / 2; 0]%R (1, 0)%R (1, 0)%R 0 1 "corr" true = Ok [1; 16 / 17; 2 / 3]%R /\
  weight_prime_from_data junk junk' out [0; 1; 2]%R (1, 0)%R (1, 0)%R 0 1 "diff" false = Ok [1; 16 / 17; 2 / 3]%R.
Proof.
  intros HO. split.
  - rewrite (@C78_line junk junk' out [1; 1 / 2; 0]%R (1, 0)%R (1, 0)%R 0%R 1%R 1%R (- 1 / 2)%R); [|cbn; lia|exact HO|lra| |].
    + rewrite (proj1 (C78_unfiltered _ _ _ _ _ _ _ _)). cbn [map]. f_equal. unfold weight_prime_from_g, bg_s, bg_r, bg_i. cbn [cre cim fst snd]. repeat (apply f_equal2; [field|]). reflexivity.
    + intros [|[|[|k]]] Hk; cbn [nth INR]; try lra. cbn in Hk. lia.
    + intros x [<-|[<-|[<-|[]]]]; lra.
  - rewrite (proj1 (proj2 (C78_unfiltered _ _ _ _ _ _ _ _))). cbn [map]. f_equal. unfold weight_prime_from_g, bg_s, bg_r, bg_i. cbn [cre cim fst snd]. repeat (apply f_equal2; [field|]). reflexivity.
Qed.
