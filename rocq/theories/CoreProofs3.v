(** Conservation, accumulation, symmetries and relations between the functions. *)
From Verif Require Import Base Kernels PairSpec KernelProofs PairLemmas RegularProofs SumProofs CoreModel
  CoreProofs CoreProofs2.
From Coq Require Import ZifyBool ZifyNat.
Ltac Zify.zify_post_hook ::= Z.div_mod_to_equations.
Set Implicit Arguments.

(* ------------------------------------------------------------------ *)
(** * Default lengths *)

Lemma snd_combine A (f : list A) (t : list Z) : length f = length t -> map snd (combine f t) = t.
Proof.
  revert t; induction f as [|x f IH]; intros [|y t] H; simpl in *; try lia; [reflexivity|].
  rewrite IH by lia. reflexivity.
Qed.

Lemma snd_times t : map snd (times t) = t.
Proof. unfold times. rewrite map_map. apply map_id. Qed.

Lemma snd_regular A (f : list A) : map snd (regular f) = arange (length f).
Proof. apply snd_combine. rewrite arange_length. reflexivity. Qed.

Lemma covers_full A B (d1 : list (sample A)) (d2 : list (sample B)) L t1 t2 :
  map snd d1 = t1 -> map snd d2 = t2 -> t1 <> [] -> t2 <> [] ->
  exists N, _determine_full_length_cross L (Some (t1, t2)) = Ok N /\ covers d1 d2 N /\ (0 < N)%nat.
Proof.
  intros E1 E2 H1 H2. unfold _determine_full_length_cross.
  destruct (zmin_list_ok H1) as [a Ha], (zmax_list_ok H1) as [b Hb],
           (zmin_list_ok H2) as [c Hc], (zmax_list_ok H2) as [d Hd].
  rewrite Ha, Hb, Hc, Hd. cbn [bind]. eexists; split; [reflexivity|].
  destruct (zmin_list_spec _ Ha) as [Ia La], (zmax_list_spec _ Hb) as [Ib Lb],
           (zmin_list_spec _ Hc) as [Ic Lc], (zmax_list_spec _ Hd) as [Id Ld].
  pose proof (La b Ib). pose proof (Lc d Id). split; [|lia]. split.
  - intros [p q] Hp. apply in_prod_iff in Hp. destruct Hp as [Hp Hq].
    assert (Ip : In (snd p) t1) by (rewrite <- E1; apply in_map; exact Hp).
    assert (Iq : In (snd q) t2) by (rewrite <- E2; apply in_map; exact Hq).
    pose proof (La _ Ip). pose proof (Lb _ Ip). pose proof (Lc _ Iq). pose proof (Ld _ Iq).
    unfold delay; cbn [fst snd]. lia.
  - rewrite <- E1 in Ia, Ib. rewrite <- E2 in Ic, Id.
    apply in_map_iff in Ia, Ib, Ic, Id.
    destruct Ia as (pa & <- & Pa), Ib as (pb & <- & Pb), Ic as (pc & <- & Pc), Id as (pd & <- & Pd).
    destruct (Z.le_ge_cases (snd pb - snd pc) (snd pd - snd pa)).
    + exists (pa, pd). split; [apply in_prod_iff; auto|]. unfold delay; cbn [fst snd]. lia.
    + exists (pb, pc). split; [apply in_prod_iff; auto|]. unfold delay; cbn [fst snd]. lia.
Qed.

Lemma covers_regular A B (f1 : list A) (f2 : list B) : length f1 = length f2 -> f1 <> [] ->
  covers (regular f1) (regular f2) (length f1).
Proof.
  intros HL Hne. assert (Hn := len_nonnil Hne).
  assert (H0 : forall C (g : list C) p, In p (regular g) -> (0 <= snd p < Z.of_nat (length g))%Z).
  { intros C g p Hp. apply (in_map snd) in Hp. rewrite snd_regular in Hp. unfold arange in Hp.
    apply in_map_iff in Hp. destruct Hp as (k & <- & Hk). apply in_seq in Hk. lia. }
  assert (H1 : forall C (g : list C) z, (0 <= z < Z.of_nat (length g))%Z -> exists p, In p (regular g) /\ snd p = z).
  { intros C g z Hz. assert (In z (map snd (regular g))).
    { rewrite snd_regular. unfold arange. apply in_map_iff. exists (Z.to_nat z). split; [lia|]. apply in_seq; lia. }
    apply in_map_iff in H. destruct H as (p & Hp & Ip). exists p; auto. }
  split.
  - intros [p q] Hp. apply in_prod_iff in Hp. destruct Hp as [Hp Hq].
    apply H0 in Hp. apply H0 in Hq. unfold delay; cbn [fst snd]. lia.
  - destruct (H1 A f1 0%Z) as (p & Hp & Ep); [lia|].
    destruct (H1 B f2 (Z.of_nat (length f2) - 1)%Z) as (q & Hq & Eq); [lia|].
    exists (p, q). split; [apply in_prod_iff; auto|]. unfold delay; cbn [fst snd]. lia.
Qed.

Lemma covers_samples A B (f1 : list A) (f2 : list B) t1 t2 :
  valid_cross f1 f2 t1 t2 -> f1 <> [] ->
  exists N, _determine_full_length_cross (length f1)
      match t1, t2 with Some t1, Some t2 => Some (t1, t2) | _, _ => None end = Ok N /\
    covers (samples f1 t1) (samples f2 t2) N /\ (0 < N)%nat /\ (t1 = None -> N = length f1).
Proof.
  intros [HL HV] Hne. destruct t1 as [t1|], t2 as [t2|]; try contradiction.
  - destruct HV as (H1 & H2 & _).
    destruct (@covers_full A B (combine f1 t1) (combine f2 t2) (length f1) t1 t2) as (N & HN & HC & H0).
    + apply snd_combine; lia.
    + apply snd_combine; lia.
    + eapply nonnil_len; [exact H1|exact Hne].
    + eapply nonnil_len; [exact (eq_trans H2 (eq_sym HL))|exact Hne].
    + exists N. repeat split; auto; try apply HC. discriminate.
  - exists (length f1). pose proof (len_nonnil Hne). split; [reflexivity|]. split; [apply covers_regular; auto|].
    split; [lia|auto].
Qed.

Lemma covers_samples_auto A (f : list A) t :
  valid_auto f t -> f <> [] ->
  exists N, _determine_full_length_auto (length f) t = Ok N /\
    covers (samples f t) (samples f t) N /\ (0 < N)%nat /\ (t = None -> N = length f).
Proof.
  intros HV Hne.
  destruct (@covers_samples A A f f t t) as (N & HN & HC & H0 & H1); auto.
  - split; [reflexivity|]. destruct t; auto. destruct HV; auto.
  - exists N. split; auto. destruct t as [t|]; cbn [_determine_full_length_cross _determine_full_length_auto] in *; [|exact HN].
    destruct (zmin_list t) as [a|] eqn:Ea; [|discriminate]. destruct (zmax_list t) as [b|] eqn:Eb; [|discriminate].
    cbn [bind] in *. rewrite <- HN. f_equal. lia.
Qed.

(* ------------------------------------------------------------------ *)
(** * Conservation: with the full length, every pair is used exactly once *)

Lemma Sum_delta_in (M : CMon) n (z : Z) (x : M) : (0 <= z < Z.of_nat n)%Z ->
  Sum M (seq 0 n) (fun k => if (z =? Z.of_nat k)%Z then x else m0 M) = x.
Proof.
  intros H. replace n with (Z.to_nat z + (S (n - Z.to_nat z - 1)))%nat by lia.
  rewrite seq_app, Sum_app. cbn [seq]. rewrite Sum_cons.
  rewrite Sum_zero, madd_0_l.
  - replace (z =? Z.of_nat (0 + Z.to_nat z))%Z with true by lia.
    rewrite Sum_zero; [apply madd_0_r|]. intros k Hk. apply in_seq in Hk.
    replace (z =? Z.of_nat k)%Z with false by lia. reflexivity.
  - intros k Hk. apply in_seq in Hk. replace (z =? Z.of_nat k)%Z with false by lia. reflexivity.
Qed.

Lemma Sum_partition (M : CMon) E (l : list E) (key : E -> Z) (g : E -> M) n :
  (forall p, In p l -> (0 <= key p < Z.of_nat n)%Z) ->
  Sum M (seq 0 n) (fun k => Sum M (filter (fun p => key p =? Z.of_nat k)%Z l) g) = Sum M l g.
Proof.
  intros H.
  rewrite (Sum_ext M (seq 0 n) _ (fun k => Sum M l (fun p => if (key p =? Z.of_nat k)%Z then g p else m0 M)))
    by (intros; apply Sum_filter).
  rewrite Sum_swap. apply Sum_ext. intros p Hp. apply Sum_delta_in. apply H; exact Hp.
Qed.

Lemma conserve_abs (M : CMon) A B (d1 : list (sample A)) (d2 : list (sample B)) N g :
  covers d1 d2 N -> Sum M (seq 0 N) (fun k => Sum M (pairs_at k d1 d2) g) = Sum M (list_prod d1 d2) g.
Proof.
  intros [H _]. apply Sum_partition. intros p Hp. specialize (H p Hp). lia.
Qed.

Lemma lag_at_inj n i z : (i < 2 * n - 1)%nat -> (Z.abs z < Z.of_nat n)%Z ->
  (z =? lag_at n i)%Z = ((if (z <? 0)%Z then z + (2 * Z.of_nat n - 1) else z) =? Z.of_nat i)%Z.
Proof. intros Hi Hz. unfold lag_at. destruct (i <? n)%nat eqn:E1, (z <? 0)%Z eqn:E2; lia. Qed.

Lemma conserve_signed (M : CMon) A B (d1 : list (sample A)) (d2 : list (sample B)) N g :
  covers d1 d2 N ->
  Sum M (seq 0 (2 * N - 1)) (fun i => Sum M (pairs_signed (lag_at N i) d1 d2) g) = Sum M (list_prod d1 d2) g.
Proof.
  intros [H _].
  rewrite <- (@Sum_partition M _ (list_prod d1 d2)
     (fun p => if (delay p <? 0)%Z then delay p + (2 * Z.of_nat N - 1) else delay p)%Z g (2 * N - 1)).
  - apply Sum_ext. intros i Hi. apply in_seq in Hi. unfold pairs_signed.
    rewrite !Sum_filter. apply Sum_ext. intros p Hp. specialize (H p Hp).
    rewrite lag_at_inj by lia. reflexivity.
  - intros p Hp. specialize (H p Hp). destruct (delay p <? 0)%Z eqn:E; lia.
Qed.

Lemma in_upairs A (l : list A) p : In p (upairs l) -> In p (list_prod l l).
Proof.
  destruct p as [x y]. intros H. apply in_prod_iff.
  induction l as [|z l IH]; [contradiction|]. cbn [upairs] in H. apply in_app_or in H.
  destruct H as [H|H].
  - apply in_map_iff in H. destruct H as (w & [= <- <-] & Hw). split; [now left|exact Hw].
  - specialize (IH H). simpl. tauto.
Qed.

Lemma conserve_auto (M : CMon) A (d : list (sample A)) N g :
  covers d d N -> Sum M (seq 0 N) (fun k => Sum M (upairs_at k d) g) = Sum M (upairs d) g.
Proof.
  intros [H _]. apply Sum_partition. intros p Hp. specialize (H p (in_upairs _ _ Hp)). lia.
Qed.

Lemma upairs_length A (l : list A) : (2 * length (upairs l) = length l * (length l + 1))%nat.
Proof.
  induction l as [|x l IH]; [reflexivity|]. cbn [upairs]. rewrite app_length, map_length. cbn [length]. lia.
Qed.

Lemma covers_last_nonempty A B (d1 : list (sample A)) (d2 : list (sample B)) N : (0 < N)%nat ->
  covers d1 d2 N -> pairs_at (N - 1) d1 d2 <> [].
Proof.
  intros H0 [_ (p & Hp & E)] HC. assert (Hin : In p (pairs_at (N - 1) d1 d2)).
  { apply filter_In. split; [exact Hp|]. lia. }
  rewrite HC in Hin. exact Hin.
Qed.

Section Conserve.
  Variable K : Fld.
  Notation C := (Cx K).

  Theorem cross_correlate_default (f1 f2 : list C) t1 t2 aligned :
    valid_cross f1 f2 t1 t2 -> f1 <> [] ->
    exists N, cross_correlate f1 f2 t1 t2 None aligned None =
              Ok (map (corr_spec (samples f1 t1) (samples f2 t2)) (seq 0 N)) /\
      covers (samples f1 t1) (samples f2 t2) N /\
      lsum (fmon K) (map (corr_spec (samples f1 t1) (samples f2 t2)) (seq 0 N)) =
      Sum (fmon K) (list_prod (samples f1 t1) (samples f2 t2)) (@re_prod K).
  Proof.
    intros HV Hne. destruct (covers_samples HV Hne) as (N & HN & HC & H0 & HL).
    exists N. split; [|split; [exact HC|]].
    - unfold cross_correlate.
      etransitivity; [exact (@run_cross_default C (fmon K) false _ _ f1 f2 t1 t2 aligned N HN)|].
      apply cross_correlate_fresh; [exact HV|]. intros E _. rewrite (HL E). lia.
    - etransitivity; [apply (lsum_map_seq (fmon K))|]. apply (conserve_abs (fmon K)); exact HC.
  Qed.

  Theorem cross_correlate_complex_default (f1 f2 : list C) t1 t2 aligned :
    valid_cross f1 f2 t1 t2 -> f1 <> [] ->
    exists N, cross_correlate_complex f1 f2 t1 t2 None aligned None =
              Ok (map (fun i => corr_complex_spec (samples f1 t1) (samples f2 t2) (lag_at N i)) (seq 0 (2 * N - 1))) /\
      covers (samples f1 t1) (samples f2 t2) N /\
      lsum (cmon K) (map (fun i => corr_complex_spec (samples f1 t1) (samples f2 t2) (lag_at N i)) (seq 0 (2 * N - 1))) =
      Sum (cmon K) (list_prod (samples f1 t1) (samples f2 t2)) (@cx_prod K).
  Proof.
    intros HV Hne. destruct (covers_samples HV Hne) as (N & HN & HC & H0 & HL).
    exists N. split; [|split; [exact HC|]].
    - unfold cross_correlate_complex.
      etransitivity; [exact (@run_cross_default C (cmon K) true _ _ f1 f2 t1 t2 aligned N HN)|].
      apply cross_correlate_complex_fresh; [exact HV|exact H0|]. intros E _. rewrite (HL E). lia.
    - etransitivity; [apply (lsum_map_seq (cmon K))|]. apply (conserve_signed (cmon K)); exact HC.
  Qed.

  Theorem cross_difference_default (f1 f2 : list C) t1 t2 aligned :
    valid_cross f1 f2 t1 t2 -> f1 <> [] ->
    exists N, cross_difference f1 f2 t1 t2 None aligned None =
              Ok (map (diff_spec (samples f1 t1) (samples f2 t2)) (seq 0 N)) /\
      covers (samples f1 t1) (samples f2 t2) N.
  Proof.
    intros HV Hne. destruct (covers_samples HV Hne) as (N & HN & HC & H0 & HL).
    exists N. split; [|exact HC].
    unfold cross_difference.
    etransitivity; [exact (@run_cross_default C (fmon K) false _ _ f1 f2 t1 t2 aligned N HN)|].
    apply cross_difference_fresh; [exact HV|]. intros E _. rewrite (HL E). lia.
  Qed.

  Theorem auto_correlate_default (f : list C) t aligned :
    valid_auto f t -> f <> [] ->
    exists N, auto_correlate f t None aligned None =
              Ok (map (acorr_spec (samples f t)) (seq 0 N)) /\
      covers (samples f t) (samples f t) N /\
      lsum (fmon K) (map (acorr_spec (samples f t)) (seq 0 N)) =
      Sum (fmon K) (upairs (samples f t)) (@re_prod K).
  Proof.
    intros HV Hne. destruct (@covers_samples_auto _ f t HV Hne) as (N & HN & HC & H0 & HL).
    exists N. split; [|split; [exact HC|]].
    - unfold auto_correlate.
      etransitivity; [exact (@run_auto_default C (fmon K) _ _ f t aligned N HN)|].
      apply auto_correlate_fresh; [exact HV|]. intros E _. rewrite (HL E). lia.
    - etransitivity; [apply (lsum_map_seq (fmon K))|]. apply (conserve_auto (fmon K)); exact HC.
  Qed.
End Conserve.

Lemma lsum_nat_Sum A (l : list A) (f : A -> nat) : list_sum (map f l) = Sum natmon l f.
Proof. unfold Sum. induction l as [|x l IH]; simpl; [reflexivity|]. rewrite IH. reflexivity. Qed.

Theorem cross_count_default t1 t2 : targ_times t1 <> [] -> targ_opt t1 t2 <> [] ->
  exists c, cross_count t1 t2 None false None = Ok c /\
    list_sum c = (length (targ_times t1) * length (targ_opt t1 t2))%nat /\
    (0 < length c)%nat /\ (0 < nth (length c - 1) c 0)%nat.
Proof.
  intros H1 H2.
  destruct (@covers_full unit unit (times (targ_times t1)) (times (targ_opt t1 t2)) 0
              (targ_times t1) (targ_opt t1 t2)) as (N & HN & HC & H0); auto using snd_times.
  assert (E : cross_count t1 t2 None false None = cross_count t1 t2 (Some N) false None).
  { unfold cross_count, _default_count. fold (targ_opt t1 t2). rewrite HN. reflexivity. }
  rewrite E, cross_count_real_fresh. eexists. split; [reflexivity|].
  rewrite map_length, seq_length, nth_map_seq by lia. repeat split; [|exact H0|].
  - rewrite lsum_nat_Sum.
    transitivity (Sum natmon (list_prod (times (targ_times t1)) (times (targ_opt t1 t2))) (fun _ => 1%nat)).
    + rewrite <- (conserve_abs natmon (N:=N)) by exact HC. apply Sum_ext. intros k _. symmetry; apply Sum_nat_1.
    + rewrite Sum_nat_1, prod_length, !times_length. reflexivity.
  - pose proof (covers_last_nonempty H0 HC) as Hn. destruct (pairs_at (N - 1) _ _); [congruence|simpl; lia].
Qed.

Theorem cross_count_complex_default t1 t2 : targ_times t1 <> [] -> targ_opt t1 t2 <> [] ->
  exists c, cross_count t1 t2 None true None = Ok c /\
    list_sum c = (length (targ_times t1) * length (targ_opt t1 t2))%nat.
Proof.
  intros H1 H2.
  destruct (@covers_full unit unit (times (targ_times t1)) (times (targ_opt t1 t2)) 0
              (targ_times t1) (targ_opt t1 t2)) as (N & HN & HC & H0); auto using snd_times.
  assert (E : cross_count t1 t2 None true None = cross_count t1 t2 (Some N) true None).
  { unfold cross_count, _default_count. fold (targ_opt t1 t2). rewrite HN. reflexivity. }
  rewrite E, cross_count_complex_fresh by exact H0. eexists. split; [reflexivity|].
  rewrite lsum_nat_Sum.
  transitivity (Sum natmon (list_prod (times (targ_times t1)) (times (targ_opt t1 t2))) (fun _ => 1%nat)).
  + rewrite <- (conserve_signed natmon (N:=N)) by exact HC. apply Sum_ext. intros k _. symmetry; apply Sum_nat_1.
  + rewrite Sum_nat_1, prod_length, !times_length. reflexivity.
Qed.

Lemma upairs_at_last A (d : list (sample A)) N : (0 < N)%nat -> covers d d N -> upairs_at (N - 1) d <> [].
Proof.
  intros H0 HC Hn. apply (covers_last_nonempty H0 HC).
  assert (E : length (pairs_at (N - 1) d d) = 0%nat).
  { pose proof (Sum_pairs_upairs natmon (N - 1) d (fun _ => 1%nat)) as H.
    rewrite Hn, Sum_nil in H. rewrite !Sum_nat_1 in H.
    change (madd natmon) with Nat.add in H. change (m0 natmon) with 0%nat in H. lia. }
  destruct (pairs_at (N - 1) d d); [reflexivity|discriminate].
Qed.

Theorem auto_count_default t : targ_times t <> [] ->
  exists c, auto_count t None None = Ok c /\
    (2 * list_sum c = length (targ_times t) * (length (targ_times t) + 1))%nat /\
    (0 < length c)%nat /\ (0 < nth (length c - 1) c 0)%nat.
Proof.
  intros H1.
  destruct (@covers_full unit unit (times (targ_times t)) (times (targ_times t)) 0
              (targ_times t) (targ_times t)) as (N & HN & HC & H0); auto using snd_times.
  assert (E : auto_count t None None = auto_count t (Some N) None).
  { unfold auto_count, _default_count. rewrite HN. reflexivity. }
  rewrite E, auto_count_fresh. eexists. split; [reflexivity|].
  rewrite map_length, seq_length, nth_map_seq by lia. repeat split; [|exact H0|].
  - rewrite lsum_nat_Sum, <- (times_length (targ_times t)), <- upairs_length. f_equal.
    rewrite <- (Sum_nat_1 (upairs _)), <- (conserve_auto natmon (N:=N)) by exact HC.
    apply Sum_ext. intros k _. symmetry; apply Sum_nat_1.
  - pose proof (upairs_at_last H0 HC) as Hn. destruct (upairs_at (N - 1) _); [congruence|simpl; lia].
Qed.

(* ------------------------------------------------------------------ *)
(** * Accumulation over data sets *)

Section Accumulate.
  Variables (D : Type) (M : CMon) (call : D -> option (list M) -> res (list M)) (n : nat) (S : D -> nat -> M).
  Hypothesis Hcall : forall d prev, length prev = n -> call d (Some prev) = Ok (plus_cells M prev (S d)).

  Lemma plus_cells_plus (out : list M) f g :
    plus_cells M (plus_cells M out f) g = plus_cells M out (fun k => madd M (f k) (g k)).
  Proof.
    unfold plus_cells at 1. rewrite plus_cells_length. apply map_ext_in. intros k Hk.
    apply in_seq in Hk. rewrite nth_plus_cells by lia. symmetry. apply madd_assoc.
  Qed.

  Lemma plus_cells_0 (out : list M) f : (forall k, f k = m0 M) -> plus_cells M out f = out.
  Proof.
    intros H. symmetry. apply plus_cells_intro; [reflexivity|].
    intros k Hk. rewrite H, madd_0_r. reflexivity.
  Qed.

  Lemma accumulate_sum prev ds : length prev = n ->
    accumulate call prev ds = Ok (plus_cells M prev (fun k => Sum M ds (fun d => S d k))).
  Proof.
    revert prev; induction ds as [|d ds IH]; intros prev Hp; simpl.
    - rewrite plus_cells_0; reflexivity.
    - rewrite Hcall by exact Hp. cbn [bind]. rewrite IH by (rewrite plus_cells_length; exact Hp).
      f_equal. rewrite plus_cells_plus. reflexivity.
  Qed.
End Accumulate.

(* ------------------------------------------------------------------ *)
(** * Symmetries *)
Section Symmetry.
  Variable K : Fld.
  Add Field Kfield : (flaw K).
  Notation C := (Cx K).

  Lemma re_prod_swap (p : sample C * sample C) : re_prod (swap p) = re_prod p.
  Proof. unfold re_prod, swap, cmul, conj, cre, cim; simpl. ring. Qed.
  Lemma sq_diff_swap (p : sample C * sample C) : sq_diff (swap p) = sq_diff p.
  Proof. unfold sq_diff, swap, cnorm2, csub, cre, cim; simpl. ring. Qed.
  Lemma cx_prod_swap (p : sample C * sample C) : cx_prod (swap p) = conj (cx_prod p).
  Proof. unfold cx_prod, swap, cmul, conj, cre, cim; simpl. f_equal; ring. Qed.

  Lemma conj_add (a b : C) : conj (cadd a b) = cadd (conj a) (conj b).
  Proof. unfold conj, cadd, cre, cim; simpl. f_equal; ring. Qed.
  Lemma conj_Sum A (l : list A) (f : A -> C) :
    conj (Sum (cmon K) l f) = Sum (cmon K) l (fun x => conj (f x)).
  Proof.
    induction l as [|x l IH]; [unfold Sum; simpl; unfold conj, c0, cre, cim; simpl; f_equal; ring|].
    rewrite !Sum_cons, <- IH. apply conj_add.
  Qed.
  Lemma cre_Sum A (l : list A) (f : A -> C) :
    cre (Sum (cmon K) l f) = Sum (fmon K) l (fun x => cre (f x)).
  Proof.
    induction l as [|x l IH]; [reflexivity|]. rewrite !Sum_cons. unfold cre at 1. simpl. f_equal. exact IH.
  Qed.

  Lemma corr_spec_swap (d1 d2 : list (sample C)) k : corr_spec d2 d1 k = corr_spec d1 d2 k.
  Proof. unfold corr_spec. rewrite Sum_pairs_at_swap. apply Sum_ext. intros; apply re_prod_swap. Qed.
  Lemma diff_spec_swap (d1 d2 : list (sample C)) k : diff_spec d2 d1 k = diff_spec d1 d2 k.
  Proof. unfold diff_spec. rewrite Sum_pairs_at_swap. apply Sum_ext. intros; apply sq_diff_swap. Qed.
  Lemma corr_complex_spec_swap (d1 d2 : list (sample C)) m :
    corr_complex_spec d2 d1 m = conj (corr_complex_spec d1 d2 (- m)).
  Proof.
    unfold corr_complex_spec. rewrite Sum_pairs_signed_swap, conj_Sum.
    apply Sum_ext. intros; apply cx_prod_swap.
  Qed.

  Lemma valid_cross_swap A B (f1 : list A) (f2 : list B) t1 t2 :
    valid_cross f1 f2 t1 t2 -> valid_cross f2 f1 t2 t1.
  Proof.
    intros [HL HV]. split; [lia|]. destruct t1, t2; try tauto. destruct HV as (H1 & H2 & H3).
    repeat split; auto. destruct f1, f2; simpl in *; congruence.
  Qed.

  (** ** Permutations *)
  Lemma corr_spec_perm (d1 d1' d2 d2' : list (sample C)) k :
    Permutation d1 d1' -> Permutation d2 d2' -> corr_spec d1 d2 k = corr_spec d1' d2' k.
  Proof. intros. apply Sum_Permutation, pairs_at_perm; assumption. Qed.
  Lemma diff_spec_perm (d1 d1' d2 d2' : list (sample C)) k :
    Permutation d1 d1' -> Permutation d2 d2' -> diff_spec d1 d2 k = diff_spec d1' d2' k.
  Proof. intros. apply Sum_Permutation, pairs_at_perm; assumption. Qed.
  Lemma corr_complex_spec_perm (d1 d1' d2 d2' : list (sample C)) k :
    Permutation d1 d1' -> Permutation d2 d2' -> corr_complex_spec d1 d2 k = corr_complex_spec d1' d2' k.
  Proof. intros. apply Sum_Permutation, pairs_signed_perm; assumption. Qed.

  Lemma Sum_upairs_at_perm (M : CMon) A k (d d' : list (sample A)) g :
    (forall p, In p (list_prod d d) -> g (swap p) = g p) -> Permutation d d' ->
    Sum M (upairs_at k d) g = Sum M (upairs_at k d') g.
  Proof.
    intros Hs HP. unfold upairs_at. rewrite !Sum_filter.
    pose (g' := fun p : sample A * sample A => if (Z.abs (delay p) =? Z.of_nat k)%Z then g p else m0 M).
    fold g'.
    assert (Hg : forall x y, In x d -> In y d -> g' (x, y) = g' (y, x)).
    { intros x y Hx Hy. unfold g'. rewrite <- (Hs (y, x)) by (apply in_prod_iff; auto).
      unfold swap, delay; simpl.
      replace (Z.abs (snd y - snd x)) with (Z.abs (snd x - snd y)) by lia. reflexivity. }
    clear Hs. clearbody g'. clear g. induction HP as [|x l l' HP IH|x y l|l l' l'' HP1 IH1 HP2 IH2].
    - reflexivity.
    - rewrite !Sum_upairs_cons, IH by (intros; apply Hg; now right).
      f_equal. f_equal. apply Sum_Permutation. exact HP.
    - pose (h := fun p : sample A * sample A => g' p).
      rewrite !Sum_upairs_cons, !Sum_cons. rewrite (Hg x y) by (simpl; auto).
      rewrite <- !madd_assoc.
      set (a := g' (y, y)); set (b := g' (y, x)); set (c := g' (x, x)).
      set (u := Sum M l (fun z => g' (y, z))); set (v := Sum M l (fun z => g' (x, z))).
      set (w := Sum M (upairs l) g').
      rewrite (madd_assoc M a b), (madd_comm M a b), <- (madd_assoc M b a).
      rewrite (madd_assoc M c b), (madd_comm M c b), <- (madd_assoc M b c). f_equal.
      rewrite (madd_assoc M u c), (madd_comm M u c), <- (madd_assoc M c u).
      rewrite (madd_assoc M a c), (madd_comm M a c), <- (madd_assoc M c a). f_equal.
      rewrite (madd_assoc M v a), (madd_comm M v a), <- (madd_assoc M a v). f_equal.
      rewrite !madd_assoc. f_equal. apply madd_comm.
    - rewrite IH1 by exact Hg. apply IH2. intros x y Hx Hy.
      apply Hg; eapply Permutation_in; try eassumption; apply Permutation_sym; exact HP1.
  Qed.

  Lemma acorr_spec_perm (d d' : list (sample C)) k : Permutation d d' -> acorr_spec d k = acorr_spec d' k.
  Proof. intros. apply Sum_upairs_at_perm; [intros; apply re_prod_swap|assumption]. Qed.
  Lemma adiff_spec_perm (d d' : list (sample C)) k : Permutation d d' -> adiff_spec d k = adiff_spec d' k.
  Proof. intros. apply Sum_upairs_at_perm; [intros; apply sq_diff_swap|assumption]. Qed.

  Lemma distinct_eq A (d : list (sample A)) p q : distinct d -> In p d -> In q d -> snd p = snd q -> p = q.
  Proof.
    unfold distinct. induction d as [|x d IH]; intros HN Hp Hq E; [contradiction|].
    simpl in HN. inversion HN as [|? ? Hni HN']; subst.
    destruct Hp as [->|Hp], Hq as [->|Hq]; auto.
    - exfalso. apply Hni. rewrite E. apply in_map; exact Hq.
    - exfalso. apply Hni. rewrite <- E. apply in_map; exact Hp.
  Qed.

  Lemma acorr_complex_spec_perm (d d' : list (sample C)) k : distinct d ->
    Permutation d d' -> acorr_complex_spec d k = acorr_complex_spec d' k.
  Proof.
    intros HN HP. apply Sum_upairs_at_perm; [|assumption].
    intros [p q] Hp. apply in_prod_iff in Hp. destruct Hp as [Hp Hq].
    unfold cx_prod_ordered, swap; simpl.
    destruct (Z.eq_dec (snd p) (snd q)) as [E|NE].
    - rewrite (@distinct_eq _ d p q HN Hp Hq E). reflexivity.
    - destruct (Z.leb_spec (snd q) (snd p)), (Z.leb_spec (snd p) (snd q)); try lia; reflexivity.
  Qed.

  Lemma samples_perm_valid A B (f1 f1' : list A) (f2 f2' : list B) t1 t1' t2 t2' :
    valid_cross f1 f2 (Some t1) (Some t2) -> length f1' = length t1' -> length f2' = length t2' ->
    Permutation (combine f1 t1) (combine f1' t1') -> Permutation (combine f2 t2) (combine f2' t2') ->
    valid_cross f1' f2' (Some t1') (Some t2').
  Proof.
    intros [HL (H1 & H2 & H3)] E1 E2 P1 P2. apply Permutation_length in P1, P2.
    rewrite !combine_length in P1, P2. pose proof (len_nonnil H3).
    repeat split; try lia. destruct f1'; [simpl in *; lia|congruence].
  Qed.
End Symmetry.

(* ------------------------------------------------------------------ *)
(** * Relations between the functions *)
Section Relations.
  Variable K : Fld.
  Add Field Kfield2 : (flaw K).
  Notation C := (Cx K).

  Lemma Sum_fmul A (l : list A) (c : K) (f : A -> K) :
    Sum (fmon K) l (fun x => fmul K c (f x)) = fmul K c (Sum (fmon K) l f).
  Proof.
    induction l as [|x l IH]; [unfold Sum; simpl; ring|]. rewrite !Sum_cons, IH. simpl. ring.
  Qed.
  Lemma Sum_fsub A (l : list A) (f g : A -> K) :
    Sum (fmon K) l (fun x => fsub K (f x) (g x)) = fsub K (Sum (fmon K) l f) (Sum (fmon K) l g).
  Proof.
    induction l as [|x l IH]; [unfold Sum; simpl; ring|]. rewrite !Sum_cons, IH. simpl. ring.
  Qed.

  (** sum of squares at delay k, from the two cross_sum calls *)
  Lemma diff_corr (d1 d2 : list (sample C)) k :
    diff_spec d1 d2 k =
    fsub K (fadd K (sum_spec (fmon K) (map (map_val (@cnorm2 K)) d1) d2 k)
                   (sum_spec (fmon K) (map (map_val (@cnorm2 K)) d2) d1 k))
           (fmul K ftwo (corr_spec d1 d2 k)).
  Proof.
    unfold diff_spec, sum_spec, corr_spec.
    rewrite <- (map_id d2) at 2. rewrite (@pairs_at_map _ _ _ _ (map_val (@cnorm2 K)) (fun x => x)) by reflexivity.
    rewrite <- (map_id d1) at 3. rewrite (@pairs_at_map _ _ _ _ (map_val (@cnorm2 K)) (fun x => x)) by reflexivity.
    rewrite !Sum_map. rewrite (Sum_pairs_at_swap (fmon K) k d1 d2).
    rewrite <- Sum_fmul.
    transitivity (Sum (fmon K) (pairs_at k d1 d2) (fun p =>
      fsub K (fadd K (cnorm2 (fst (fst p))) (cnorm2 (fst (snd p)))) (fmul K ftwo (re_prod p)))).
    - apply Sum_ext. intros p _. unfold sq_diff, re_prod, cnorm2, csub, cmul, conj, cre, cim, ftwo; simpl. ring.
    - rewrite Sum_fsub. f_equal.
      exact (Sum_madd (fmon K) (pairs_at k d1 d2) (fun p => cnorm2 (fst (fst p))) (fun p => cnorm2 (fst (snd p)))).
  Qed.

  (** Sums of squares are in any set of "non-negative" numbers. *)
  Lemma diff_spec_nonneg (P : K -> Prop) (d1 d2 : list (sample C)) k :
    P (f0 K) -> (forall a b, P a -> P b -> P (fadd K a b)) -> (forall a, P (fmul K a a)) ->
    P (diff_spec d1 d2 k).
  Proof.
    intros P0 Pa Ps. unfold diff_spec. induction (pairs_at k d1 d2) as [|p l IH]; [exact P0|].
    rewrite Sum_cons. apply Pa; [|exact IH]. apply Pa; apply Ps.
  Qed.

  (** Correlation of all-ones signals. *)
  Lemma Sum_ones A (l : list A) : Sum (fmon K) l (fun _ => f1 K) = fnat K (length l).
  Proof. induction l as [|x l IH]; [reflexivity|]. rewrite Sum_cons, IH. reflexivity. Qed.

  Lemma combine_ones (t : list Z) n : n = length t ->
    combine (repeat (c1 K) n) t = map (map_val (fun _ : unit => c1 K)) (times t).
  Proof.
    intros ->. unfold times. rewrite map_map. induction t as [|x t IH]; [reflexivity|].
    simpl. rewrite IH. reflexivity.
  Qed.

  Lemma ones_re A (l : list (sample A * sample A)) g h :
    (forall p, fst (g p) = c1 K) -> (forall p, fst (h p) = c1 K) ->
    Sum (fmon K) (map (map_pair g h) l) (@re_prod K) = fnat K (length l).
  Proof.
    intros Hg Hh. rewrite Sum_map, <- Sum_ones. apply Sum_ext. intros p _.
    unfold re_prod, map_pair; simpl. rewrite Hg, Hh. unfold cmul, conj, c1, cre, cim; simpl. ring.
  Qed.

  Lemma corr_spec_ones t1 t2 n1 n2 k : n1 = length t1 -> n2 = length t2 ->
    corr_spec (combine (repeat (c1 K) n1) t1) (combine (repeat (c1 K) n2) t2) k =
    fnat K (length (pairs_at k (times t1) (times t2))).
  Proof.
    intros H1 H2. unfold corr_spec. rewrite !combine_ones by assumption.
    rewrite pairs_at_map by reflexivity. apply ones_re; reflexivity.
  Qed.
  Lemma acorr_spec_ones t n k : n = length t ->
    acorr_spec (combine (repeat (c1 K) n) t) k = fnat K (length (upairs_at k (times t))).
  Proof.
    intros H1. unfold acorr_spec. rewrite !combine_ones by assumption.
    rewrite upairs_at_map by reflexivity. apply ones_re; reflexivity.
  Qed.
  Lemma corr_complex_spec_ones t1 t2 n1 n2 m : n1 = length t1 -> n2 = length t2 ->
    corr_complex_spec (combine (repeat (c1 K) n1) t1) (combine (repeat (c1 K) n2) t2) m =
    cofre (fnat K (length (pairs_signed m (times t1) (times t2)))).
  Proof.
    intros H1 H2. unfold corr_complex_spec. rewrite !combine_ones by assumption.
    rewrite pairs_signed_map, Sum_map by reflexivity.
    induction (pairs_signed m (times t1) (times t2)) as [|p l IH]; [reflexivity|].
    rewrite Sum_cons, IH. unfold cofre, cx_prod, map_pair, map_val, cmul, conj, c1, cadd, cre, cim; simpl.
    unfold cadd, cre, cim; simpl. f_equal; ring.
  Qed.

  (** Folding *)
  Lemma fold_corr (d1 d2 : list (sample C)) k :
    corr_spec d1 d2 k =
    if (k =? 0)%nat then cre (corr_complex_spec d1 d2 0)
    else cre (cadd (corr_complex_spec d1 d2 (Z.of_nat k)) (corr_complex_spec d1 d2 (- Z.of_nat k))).
  Proof.
    unfold corr_spec, corr_complex_spec. destruct (Nat.eqb_spec k 0) as [->|Hk].
    - rewrite cre_Sum, pairs_at_0. reflexivity.
    - unfold cadd at 1. unfold cre at 1. cbn [fst]. rewrite !cre_Sum.
      rewrite pairs_at_signed by lia. reflexivity.
  Qed.

  Lemma fold_count A B (d1 : list (sample A)) (d2 : list (sample B)) k :
    length (pairs_at k d1 d2) =
    if (k =? 0)%nat then length (pairs_signed 0 d1 d2)
    else (length (pairs_signed (Z.of_nat k) d1 d2) + length (pairs_signed (- Z.of_nat k) d1 d2))%nat.
  Proof.
    destruct (Nat.eqb_spec k 0) as [->|Hk].
    - rewrite pairs_at_0. reflexivity.
    - rewrite <- !Sum_nat_1. rewrite pairs_at_signed by lia. reflexivity.
  Qed.

  (** Auto-correlation against the cross-correlation with itself *)
  Lemma acorr_cross (d : list (sample C)) k : distinct d ->
    corr_spec d d k = if (k =? 0)%nat then acorr_spec d k else fadd K (acorr_spec d k) (acorr_spec d k).
  Proof. intros HN. apply (cross_self (fmon K)); [exact HN|apply re_prod_swap]. Qed.
  Lemma adiff_cross (d : list (sample C)) k : distinct d ->
    diff_spec d d k = if (k =? 0)%nat then adiff_spec d k else fadd K (adiff_spec d k) (adiff_spec d k).
  Proof. intros HN. apply (cross_self (fmon K)); [exact HN|apply sq_diff_swap]. Qed.
  Lemma acount_cross A (d : list (sample A)) k : distinct d ->
    length (pairs_at k d d) = if (k =? 0)%nat then length (upairs_at k d)
                              else (length (upairs_at k d) + length (upairs_at k d))%nat.
  Proof.
    intros HN. rewrite <- !Sum_nat_1. apply (cross_self natmon); [exact HN|reflexivity].
  Qed.

  Lemma acorr_complex_cross (d : list (sample C)) k : distinct d ->
    corr_complex_spec d d (Z.of_nat k) = acorr_complex_spec d k.
  Proof.
    intros HN. unfold corr_complex_spec, acorr_complex_spec.
    destruct (Nat.eq_dec k 0) as [->|Hk].
    - simpl Z.of_nat. rewrite <- pairs_at_0, Sum_pairs_at_0, Sum_upairs_at_0 by assumption.
      apply Sum_ext. intros x _. unfold cx_prod_ordered; simpl. rewrite Z.leb_refl. reflexivity.
    - pose (g := fun p : sample C * sample C => if (delay p =? Z.of_nat k)%Z then cx_prod p else m0 (cmon K)).
      pose proof (Sum_pairs_upairs (cmon K) k d g) as H.
      replace (k =? 0)%nat with false in H by lia. rewrite madd_0_r in H.
      transitivity (Sum (cmon K) (pairs_at k d d) g).
      + unfold pairs_signed, pairs_at. rewrite !Sum_filter. apply Sum_ext. intros p _. unfold g.
        destruct (Z.eqb_spec (delay p) (Z.of_nat k)) as [E|E]; [rewrite E|destruct (_ =? _)%Z; reflexivity].
        replace (Z.abs (Z.of_nat k) =? Z.of_nat k)%Z with true by lia. reflexivity.
      + rewrite H. apply Sum_ext. intros [p q] Hp. apply filter_In in Hp. destruct Hp as [_ Hp].
        unfold g, cx_prod_ordered, swap, delay in *; simpl in *.
        destruct (Z.leb_spec (snd p) (snd q)).
        * replace (snd q - snd p =? Z.of_nat k)%Z with true by lia.
          replace (snd p - snd q =? Z.of_nat k)%Z with false by lia. apply (madd_0_r (cmon K)).
        * replace (snd q - snd p =? Z.of_nat k)%Z with false by lia.
          replace (snd p - snd q =? Z.of_nat k)%Z with true by lia. apply (madd_0_l (cmon K)).
  Qed.

  (** Sums: cross_sum(f,t,t) against auto_sum *)
  Lemma sum_cross_auto (G : QGrp) (d : list (sample G)) k : distinct d ->
    sum_spec G d d k = if (k =? 0)%nat then auto_sum_value G d k
                       else madd G (auto_sum_value G d k) (auto_sum_value G d k).
  Proof.
    intros HN. unfold sum_spec, auto_sum_value. destruct (Nat.eqb_spec k 0) as [->|Hk]; [reflexivity|].
    rewrite <- half_sum by lia. rewrite <- ahalf_add. symmetry. apply ahalf_double.
  Qed.
End Relations.
