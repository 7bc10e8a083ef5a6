(** Monotone filters, interpolation, denoise. *)
From Verif Require Import Base KernelProofs Ordered AvgModel AvgProofs.
From Coq Require Import ZifyBool ZifyNat.
Set Implicit Arguments.

(** ** Denoise and affine maps *)
Section Denoise.
  Variable K : OFld.
  Add Field Kden : (flaw K).
  Local Notation "0" := (f0 K).
  Local Infix "+" := (fadd K).
  Local Infix "*" := (fmul K).
  Local Infix "-" := (fsub K).
  Local Notation at_ l i := (nth i%nat l 0).

  Lemma middle_affine a b c m u v : middle K a b c m -> middle K (u * a + v) (u * b + v) (u * c + v) (u * m + v).
  Proof.
    intros (lo & hi & P & H1 & H2). destruct (fle_total K 0 u) as [Hu|Hu].
    - exists (u * lo + v), (u * hi + v). split; [apply (Permutation_map (fun x => u * x + v)) in P; exact P|].
      split; apply fle_add; apply fle_mul; assumption.
    - exists (u * hi + v), (u * lo + v). split.
      + apply (Permutation_map (fun x => u * x + v)) in P. cbn [map] in P. rewrite P. clear. set (x := u * lo + v). set (y := u * m + v). set (z := u * hi + v).
        change [x; y; z] with ([x; y] ++ [z]). rewrite (Permutation_app_comm [x; y] [z]). cbn. apply perm_skip. apply perm_swap.
      + assert (G : forall x y, fle x y -> fle (u * y + v) (u * x + v)).
        { intros x y H. apply fle_add. apply fle_sub. replace (u * x - u * y) with ((0 - u) * (y - x)) by ring. apply fle_mul_pos; apply (proj1 (fle_sub K _ _)); assumption. }
        split; apply G; assumption.
  Qed.
  Lemma nth_map_lt (g : K -> K) a i : (i < length a)%nat -> at_ (map g a) i = g (at_ a i).
  Proof. intros H. rewrite nth_indep with (d' := g 0) by (rewrite map_length; exact H). apply map_nth. Qed.
  Lemma med_affine a i u v : (i < length a)%nat -> med K (map (fun x => u * x + v) a) i = u * med K a i + v.
  Proof.
    intros Hi. unfold med. rewrite map_length. destruct (Nat.eqb_spec i 0) as [->|]; [apply (@nth_map_lt (fun x => u * x + v)); exact Hi|].
    destruct (Nat.eqb_spec i (length a - 1)) as [E|E]; [apply (@nth_map_lt (fun x => u * x + v)); exact Hi|].
    rewrite !(@nth_map_lt (fun x => u * x + v)) by lia. eapply middle_unique; [apply median1_middle|]. apply middle_affine. apply median1_middle.
  Qed.
  Lemma smooth_affine a i u v : (i < length a)%nat -> smooth K (map (fun x => u * x + v) a) i = u * smooth K a i + v.
  Proof.
    intros Hi. unfold smooth. rewrite map_length. destruct (Nat.eqb_spec i 0) as [->|]; [apply (@nth_map_lt (fun x => u * x + v)); exact Hi|].
    destruct (Nat.eqb_spec i (length a - 1)) as [E|E]; [apply (@nth_map_lt (fun x => u * x + v)); exact Hi|].
    rewrite !(@nth_map_lt (fun x => u * x + v)) by lia. apply div_four. generalize (at_ a (i - 1)) (at_ a i) (at_ a (i + 1)). intros x y z.
    set (s := x + fnat K 2 * y + z). assert (S4 : fnat K 4 * fdiv K s (fnat K 4) = s) by (generalize (four_neq0 K); generalize (fnat K 4); intros c Hc; field; exact Hc).
    transitivity (u * (fnat K 4 * fdiv K s (fnat K 4)) + fnat K 4 * v); [|ring]. rewrite S4. unfold s. rewrite fnat_4, fnat_2. ring.
  Qed.

  Definition one_pass (x : list K) : list K := let y := map (med K x) (seq 0 (length x)) in map (smooth K y) (seq 0 (length x)).
  Fixpoint passes (n : nat) (x : list K) : list K := match n with O => x | S n => passes n (one_pass x) end.
  Lemma one_pass_length x : length (one_pass x) = length x.
  Proof. unfold one_pass. rewrite map_length, seq_length. reflexivity. Qed.
  Lemma passes_length n x : length (passes n x) = length x.
  Proof. revert x. induction n as [|n IH]; intros x; [reflexivity|]. cbn [passes]. rewrite IH. apply one_pass_length. Qed.
  Lemma one_pass_ends x : at_ (one_pass x) 0 = at_ x 0 /\ at_ (one_pass x) (length x - 1) = at_ x (length x - 1).
  Proof.
    destruct x as [|x0 x']; [split; reflexivity|]. set (x := x0 :: x'). assert (HL : (0 < length x)%nat) by (cbn; lia). clearbody x.
    unfold one_pass. rewrite !nth_map_seq by lia.
    unfold smooth. rewrite !map_length, seq_length. cbn [Nat.eqb]. rewrite Nat.eqb_refl. rewrite !nth_map_seq by lia.
    unfold med. rewrite Nat.eqb_refl. cbn [Nat.eqb].
    split; [reflexivity|]. destruct (length x - 1 =? 0)%nat eqn:E; [|rewrite Nat.eqb_refl; reflexivity]. apply Nat.eqb_eq in E. rewrite E. reflexivity.
  Qed.
  Lemma passes_ends n x : at_ (passes n x) 0 = at_ x 0 /\ at_ (passes n x) (length x - 1) = at_ x (length x - 1).
  Proof.
    revert x. induction n as [|n IH]; intros x; [split; reflexivity|]. cbn [passes]. destruct (IH (one_pass x)) as (E1 & E2). rewrite one_pass_length in E2.
    rewrite E1, E2. apply one_pass_ends.
  Qed.
  Lemma fresh_length junk (x : list K) : length (fresh K junk x) = length x.
  Proof. unfold fresh. rewrite map_length, seq_length. reflexivity. Qed.
  Lemma denoise_ok junk n (x : list K) : 2 < length x -> denoise K junk n x = Ok (passes n x).
  Proof.
    intros H. unfold denoise. cut (forall j, denoise_from K junk j n x = Ok (passes n x)); [auto|]. revert x H. induction n as [|n IH]; intros x H j; [reflexivity|]. cbn [denoise_from passes].
    rewrite median_ok by (try discriminate; try assumption; apply fresh_length). cbn [bind].
    set (y := map (med K x) (seq 0 (length x))). assert (Hy : length y = length x) by (unfold y; rewrite map_length, seq_length; reflexivity).
    rewrite convolve_ok by (try apply fresh_length; lia). cbn [bind].
    rewrite IH by (rewrite map_length, seq_length; lia). unfold one_pass. fold y. rewrite Hy. reflexivity.
  Qed.
  Lemma denoise_short junk n (x : list K) : length x <= 2 -> denoise K junk n x = match n with O => Ok x | _ => Raise AssertionError end.
  Proof. intros H. unfold denoise. destruct n as [|n]; [reflexivity|]. cbn [denoise_from]. rewrite median_short by exact H. reflexivity. Qed.

  Lemma map_seq_map (f g : nat -> K) (h : K -> K) n : (forall i, (i < n)%nat -> f i = h (g i)) -> map f (seq 0 n) = map h (map g (seq 0 n)).
  Proof. intros H. rewrite map_map. apply map_ext_in. intros i Hi. apply in_seq in Hi. apply H. lia. Qed.
  Lemma one_pass_affine x u v : one_pass (map (fun x => u * x + v) x) = map (fun x => u * x + v) (one_pass x).
  Proof.
    unfold one_pass. rewrite map_length. rewrite (@map_seq_map (med K (map (fun x => u * x + v) x)) (med K x) (fun x => u * x + v)) by (intros; apply med_affine; assumption).
    apply map_seq_map. intros i Hi. apply smooth_affine. rewrite map_length, seq_length. exact Hi.
  Qed.
  Lemma passes_affine n x u v : passes n (map (fun x => u * x + v) x) = map (fun x => u * x + v) (passes n x).
  Proof. revert x. induction n as [|n IH]; intros x; [reflexivity|]. cbn [passes]. rewrite one_pass_affine. apply IH. Qed.
  Lemma passes_between n lo hi x : (forall y, In y x -> fle lo y /\ fle y hi) -> forall y, In y (passes n x) -> fle lo y /\ fle y hi.
  Proof.
    revert x. induction n as [|n IH]; intros x H; [exact H|]. cbn [passes]. apply IH. intros y Hy. unfold one_pass in Hy. apply in_map_iff in Hy. destruct Hy as (i & <- & Hi). apply in_seq in Hi.
    apply smooth_between; rewrite ?map_length, ?seq_length; [|lia]. intros k Hk. rewrite (nth_map_seq (med K x)) by exact Hk. apply med_between; [|exact Hk]. intros q Hq. apply H. apply nth_In. exact Hq.
  Qed.
  (** Monotone data: the median changes nothing *)
  Lemma med_monotone (a : list K) i : (forall k, (S k < length a)%nat -> fle (at_ a k) (at_ a (S k))) -> (i < length a)%nat -> med K a i = at_ a i.
  Proof.
    intros H Hi. unfold med. destruct (Nat.eqb_spec i 0) as [->|]; [reflexivity|]. destruct (Nat.eqb_spec i (length a - 1)) as [E|E]; [reflexivity|].
    eapply middle_unique; [apply median1_middle|]. exists (at_ a (i - 1)), (at_ a (i + 1)). split; [reflexivity|]. split.
    - replace i with (S (i - 1)) at 2 by lia. apply H. lia.
    - replace (i + 1)%nat with (S i) by lia. apply H. lia.
  Qed.
End Denoise.

(** ** Running minimum and maximum *)
Section Monotone.
  Variable K : OFld.
  (** The least of the numbers of a list, NaN if there is none *)
  Definition least (o : option K) (l : list (option K)) : Prop :=
    match o with None => forall x, In x l -> x = None | Some m => In (Some m) l /\ forall y, In (Some y) l -> fle m y end.
  Definition greatest (o : option K) (l : list (option K)) : Prop :=
    match o with None => forall x, In x l -> x = None | Some m => In (Some m) l /\ forall y, In (Some y) l -> fle y m end.
  Lemma least_one x : least x [x].
  Proof. destruct x as [x|]; cbn; [|intros y [<-|[]]; reflexivity]. split; [auto|]. intros y [E|[]]. injection E as ->. apply fle_refl. Qed.
  Lemma greatest_one x : greatest x [x].
  Proof. destruct x as [x|]; cbn; [|intros y [<-|[]]; reflexivity]. split; [auto|]. intros y [E|[]]. injection E as ->. apply fle_refl. Qed.
  Lemma least_snoc o l x : least o l -> least (if (nlt K x o || isnan K o)%bool then x else o) (l ++ [x]).
  Proof.
    intros H. destruct o as [m|]; cbn [isnan]; [rewrite orb_false_r|rewrite orb_true_r].
    - destruct H as [H1 H2]. destruct x as [x|]; cbn [nlt].
      + destruct (flt K x m) eqn:E; (split; [apply in_or_app; cbn; auto|]); intros y Hy; apply in_app_or in Hy; destruct Hy as [Hy|[Hy|[]]]; try (injection Hy as <-); [|apply fle_refl|apply H2; exact Hy|exact E].
        apply fle_trans with m; [apply flt_le; exact E|apply H2; exact Hy].
      + split; [apply in_or_app; auto|]. intros y Hy. apply in_app_or in Hy. destruct Hy as [Hy|[Hy|[]]]; [apply H2; exact Hy|discriminate].
    - cbn in H. destruct x as [x|]; cbn.
      + split; [apply in_or_app; cbn; auto|]. intros y Hy. apply in_app_or in Hy. destruct Hy as [Hy|[Hy|[]]]; [apply H in Hy; discriminate|]. injection Hy as <-. apply fle_refl.
      + intros y Hy. apply in_app_or in Hy. destruct Hy as [Hy|[Hy|[]]]; [apply H; exact Hy|auto].
  Qed.
  Lemma greatest_snoc o l x : greatest o l -> greatest (if (nlt K o x || isnan K o)%bool then x else o) (l ++ [x]).
  Proof.
    intros H. destruct o as [m|]; cbn [isnan]; [rewrite orb_false_r|rewrite orb_true_r].
    - destruct H as [H1 H2]. destruct x as [x|]; cbn [nlt].
      + destruct (flt K m x) eqn:E; (split; [apply in_or_app; cbn; auto|]); intros y Hy; apply in_app_or in Hy; destruct Hy as [Hy|[Hy|[]]]; try (injection Hy as <-); [|apply fle_refl|apply H2; exact Hy|exact E].
        apply fle_trans with m; [apply H2; exact Hy|apply flt_le; exact E].
      + split; [apply in_or_app; auto|]. intros y Hy. apply in_app_or in Hy. destruct Hy as [Hy|[Hy|[]]]; [apply H2; exact Hy|discriminate].
    - cbn in H. destruct x as [x|]; cbn.
      + split; [apply in_or_app; cbn; auto|]. intros y Hy. apply in_app_or in Hy. destruct Hy as [Hy|[Hy|[]]]; [apply H in Hy; discriminate|]. injection Hy as <-. apply fle_refl.
      + intros y Hy. apply in_app_or in Hy. destruct Hy as [Hy|[Hy|[]]]; [apply H; exact Hy|auto].
  Qed.
  Lemma firstn_S_nth A (l : list A) d k : k < length l -> firstn (S k) l = firstn k l ++ [nth k l d].
  Proof. revert k. induction l as [|x l IH]; intros k H; [cbn in H; lia|]. destruct k as [|k]; [reflexivity|]. cbn [firstn nth app]. f_equal. apply IH. cbn in H. lia. Qed.

  Lemma decreasing_ok alias (array out : list (option K)) : length out = length array -> (alias = true -> out = array) ->
    length (decreasing K alias array out) = length array /\ forall k, k < length array -> least (nth k (decreasing K alias array out) None) (firstn (S k) array).
  Proof.
    intros HL HA. unfold decreasing. set (n := length array) in *. set (body := fun (i : nat) (out : list (option K)) => _).
    pose (P := fun i (s : list (option K)) => length s = n /\ (forall k, k < i -> least (nth k s None) (firstn (S k) array)) /\ (alias = true -> forall k, i <= k -> nth k s None = nth k array None)).
    assert (HP : P n (for_range 0 n body out)).
    { apply for_range_inv; [lia| |].
      - split; [exact HL|]. split; [intros; lia|]. intros A k _. rewrite HA by exact A. reflexivity.
      - intros i s Hi (H1 & H2 & H3).
        assert (R : nrd K alias array s i = nth i array None) by (unfold nrd; destruct alias; [apply H3; auto|reflexivity]).
        assert (G : forall v, least v (firstn (S i) array) -> P (S i) (upd s i v)).
        { intros v Hv. split; [rewrite upd_length; exact H1|]. split.
          - intros k Hk. rewrite nth_upd. destruct (Nat.eqb_spec k i) as [->|]; [replace (i <? length s) with true by lia; exact Hv|]. cbn [andb]. apply H2. lia.
          - intros A k Hk. rewrite nth_upd_other by lia. apply H3; [exact A|lia]. }
        unfold body. destruct (Nat.eqb_spec i 0) as [->|Hi0].
        + apply G. rewrite R. rewrite (firstn_S_nth array None) by (fold n; lia). cbn [firstn app]. apply least_one.
        + rewrite R. assert (HS := @least_snoc _ _ (nth i array None) (H2 (i - 1) ltac:(lia))). replace (S (i - 1)) with i in HS by lia. rewrite <- firstn_S_nth in HS by (fold n; lia).
          destruct (_ || _)%bool; apply G; exact HS. }
    destruct HP as (H1 & H2 & _). split; assumption.
  Qed.

  (** increasing: position 0 keeps the content of the output array *)
  Lemma increasing_ok alias (array out : list (option K)) : length out = length array -> (alias = true -> out = array) ->
    length (increasing K alias array out) = length array /\ nth 0 (increasing K alias array out) None = nth 0 out None /\
    forall k, k < length array -> greatest (nth k (increasing K alias array out) None) (nth 0 out None :: firstn k (skipn 1 array)).
  Proof.
    intros HL HA. unfold increasing. set (n := length array) in *. set (body := fun (i : nat) (out : list (option K)) => _).
    destruct (Nat.eq_dec n 0) as [Z|NZ].
    { rewrite for_range_nil by lia. split; [exact HL|]. split; [reflexivity|]. intros; lia. }
    pose (P := fun i (s : list (option K)) => length s = n /\ nth 0 s None = nth 0 out None /\ (forall k, k < i -> greatest (nth k s None) (nth 0 out None :: firstn k (skipn 1 array))) /\ (alias = true -> forall k, i <= k -> nth k s None = nth k array None)).
    assert (HP : P n (for_range 1 n body out)).
    { apply for_range_inv; [lia| |].
      - split; [exact HL|]. split; [reflexivity|]. split; [intros k Hk; replace k with 0 by lia; cbn [firstn]; apply greatest_one|]. intros A k _. rewrite HA by exact A. reflexivity.
      - intros i s Hi (H1 & H0 & H2 & H3).
        assert (R : nrd K alias array s i = nth i array None) by (unfold nrd; destruct alias; [apply H3; auto|reflexivity]).
        assert (G : forall v, greatest v (nth 0 out None :: firstn i (skipn 1 array)) -> P (S i) (upd s i v)).
        { intros v Hv. split; [rewrite upd_length; exact H1|]. split; [rewrite nth_upd_other by lia; exact H0|]. split.
          - intros k Hk. rewrite nth_upd. destruct (Nat.eqb_spec k i) as [->|]; [replace (i <? length s) with true by lia; exact Hv|]. cbn [andb]. apply H2. lia.
          - intros A k Hk. rewrite nth_upd_other by lia. apply H3; [exact A|lia]. }
        unfold body. replace (i =? 0) with false by lia. rewrite R.
        assert (HS := @greatest_snoc _ _ (nth i array None) (H2 (i - 1) ltac:(lia))). cbn [app] in HS.
        assert (E : firstn (i - 1) (skipn 1 array) ++ [nth i array None] = firstn i (skipn 1 array)).
        { replace i with (S (i - 1)) at 3 by lia. rewrite (firstn_S_nth (skipn 1 array) None) by (rewrite skipn_length; fold n; lia). do 2 f_equal.
          destruct array as [|x l]; [cbn in *; lia|]. cbn [skipn]. replace i with (S (i - 1)) at 1 by lia. reflexivity. }
        rewrite E in HS. destruct (_ || _)%bool; apply G; exact HS. }
    destruct HP as (H1 & H0 & H2 & _). split; [exact H1|]. split; assumption.
  Qed.
End Monotone.

(** ** Interpolation *)
Section Interpolate.
  Variable K : OFld.
  Add Field Kint : (flaw K).
  Local Notation "0" := (f0 K).
  Local Infix "+" := (fadd K).
  Local Infix "*" := (fmul K).
  Local Infix "-" := (fsub K).
  Local Notation at_ l i := (nth i%nat l 0).
  Definition segment (x y : list K) (xi : K) (j : nat) : K :=
    fdiv K ((xi - at_ x (j - 1)) * (at_ y j - at_ y (j - 1))) (at_ x j - at_ x (j - 1)) + at_ y (j - 1).

  Lemma interp_loop_spec xi x y : forall m a x0 x1,
    (exists j, (a <= j < a + m)%nat /\ fle xi (at_ x j) /\ (forall i, (a <= i < j)%nat -> flt K (at_ x i) xi = true) /\
       interp_loop K xi x y (seq a m) x0 x1 = (at_ x (j - 1), at_ x j, Some (segment x y xi j))) \/
    ((forall i, (a <= i < a + m)%nat -> flt K (at_ x i) xi = true) /\
       interp_loop K xi x y (seq a m) x0 x1 = (if (m =? 0)%nat then (x0, x1, None) else (at_ x (a + m - 2), at_ x (a + m - 1), None))).
  Proof.
    induction m as [|m IH]; intros a x0 x1; [right; split; [intros; lia|reflexivity]|]. cbn [seq interp_loop]. destruct (flt K (at_ x a) xi) eqn:E; cbn [negb].
    - destruct (IH (S a) (at_ x (a - 1)) (at_ x a)) as [(j & H1 & H2 & H3 & H4)|[H1 H2]].
      + left. exists j. split; [lia|]. split; [exact H2|]. split; [|exact H4]. intros i Hi. destruct (Nat.eq_dec i a) as [->|]; [exact E|]. apply H3. lia.
      + right. split; [intros i Hi; destruct (Nat.eq_dec i a) as [->|]; [exact E|apply H1; lia]|]. rewrite H2. cbn [Nat.eqb].
        destruct (Nat.eqb_spec m 0) as [E0|E0]; [rewrite E0; replace (a + 1 - 2)%nat with (a - 1)%nat by lia; replace (a + 1 - 1)%nat with a by lia; reflexivity|].
        replace (S a + m)%nat with (a + S m)%nat by lia. reflexivity.
    - left. exists a. split; [lia|]. split; [exact E|]. split; [intros; lia|reflexivity].
  Qed.
  Definition increasing_nodes (x : list K) : Prop := forall i j, (i < j < length x)%nat -> flt K (at_ x i) (at_ x j) = true.

  (** The value is that of the segment which contains the point, or of the first or last one *)
  Lemma interpolate1_segment x y xi out : (2 <= length x)%nat -> length y = length x ->
    exists j, (1 <= j < length x)%nat /\ interpolate1 K x y xi out = segment x y xi j /\
      (forall i, (1 <= i < j)%nat -> flt K (at_ x i) xi = true) /\ ((j < length x - 1)%nat -> fle xi (at_ x j)).
  Proof.
    intros Hx Hy. unfold interpolate1. destruct (interp_loop_spec xi x y (length x - 1) 1 0 0) as [(j & H1 & H2 & H3 & H4)|[H1 H2]].
    - rewrite H4. unfold fle in H2. rewrite H2. exists j. split; [lia|]. split; [reflexivity|]. split; [exact H3|]. intros _. exact H2.
    - rewrite H2. replace (length x - 1 =? 0)%nat with false by lia. set (n := length x) in *.
      replace (1 + (n - 1) - 2)%nat with (n - 1 - 1)%nat by lia. replace (1 + (n - 1) - 1)%nat with (n - 1)%nat by lia. rewrite (H1 (n - 1)%nat) by lia.
      exists (n - 1)%nat. split; [lia|]. rewrite Hy. replace (n - 2)%nat with (n - 1 - 1)%nat by lia. split; [reflexivity|]. split; [|intros; lia]. intros i Hi. apply H1. lia.
  Qed.
  Lemma nodes_neq x j : increasing_nodes x -> (1 <= j < length x)%nat -> at_ x j - at_ x (j - 1) <> 0.
  Proof.
    intros H Hj E. assert (L : flt K (at_ x (j - 1)) (at_ x j) = true) by (apply H; lia). apply (proj1 (flt_sub K _ _)) in L. rewrite E in L. rewrite flt_irrefl in L. discriminate.
  Qed.
  Lemma segment_linear x y xi j a b : increasing_nodes x -> (1 <= j < length x)%nat -> (forall k, (k < length x)%nat -> at_ y k = a * at_ x k + b) -> segment x y xi j = a * xi + b.
  Proof.
    intros HI Hj H. pose proof (nodes_neq HI Hj) as N. unfold segment. rewrite !H by lia. revert N. generalize (at_ x j) (at_ x (j - 1)). intros u v N. field. exact N.
  Qed.
  Lemma segment_left x y j : segment x y (at_ x (j - 1)) j = at_ y (j - 1) \/ at_ x j - at_ x (j - 1) = 0.
  Proof.
    destruct (flt K (at_ x j - at_ x (j - 1)) 0) eqn:E1; [left|destruct (flt K 0 (at_ x j - at_ x (j - 1))) eqn:E2; [left|right; apply flt_total; assumption]];
    unfold segment; revert E1; try revert E2; generalize (at_ x j) (at_ x (j - 1)); intros u v; intros.
    - assert (N : u - v <> 0) by (apply flt_neq; assumption). field. exact N.
    - assert (N : u - v <> 0) by (intros Z; rewrite Z, flt_irrefl in *; discriminate). field. exact N.
  Qed.
  Lemma segment_right x y j : increasing_nodes x -> (1 <= j < length x)%nat -> segment x y (at_ x j) j = at_ y j.
  Proof. intros HI Hj. pose proof (nodes_neq HI Hj) as N. unfold segment. revert N. generalize (at_ x j) (at_ x (j - 1)). intros u v N. field. exact N. Qed.

  Lemma interpolate1_node x y k out : (2 <= length x)%nat -> length y = length x -> increasing_nodes x -> (k < length x)%nat -> interpolate1 K x y (at_ x k) out = at_ y k.
  Proof.
    intros Hx Hy HI Hk. destruct (interpolate1_segment x y (at_ x k) out Hx Hy) as (j & Hj & E & H1 & H2). rewrite E. clear E.
    destruct (Nat.eq_dec k 0) as [->|Hk0].
    - assert (j = 1)%nat as ->.
      { destruct (Nat.eq_dec j 1); [assumption|]. exfalso. specialize (H1 1%nat ltac:(lia)). rewrite (flt_asym K _ _ (HI 0%nat 1%nat ltac:(lia))) in H1. discriminate. }
      destruct (segment_left x y 1) as [S|S]; [exact S|]. exfalso. exact (nodes_neq HI Hj S).
    - assert (j = k)%nat as ->.
      { destruct (Nat.lt_trichotomy j k) as [L|[L|L]]; [|exact L|].
        - exfalso. specialize (H2 ltac:(lia)). unfold fle in H2. rewrite HI in H2 by lia. discriminate.
        - exfalso. specialize (H1 k ltac:(lia)). rewrite flt_irrefl in H1. discriminate. }
      apply segment_right; assumption.
  Qed.
  (** Between two neighbouring nodes the value lies between the two data *)
  Lemma interpolate1_between x y xi k out lo hi : (2 <= length x)%nat -> length y = length x -> increasing_nodes x -> (1 <= k < length x)%nat ->
    fle (at_ x (k - 1)) xi -> fle xi (at_ x k) -> fle lo (at_ y (k - 1)) -> fle lo (at_ y k) -> fle (at_ y (k - 1)) hi -> fle (at_ y k) hi ->
    fle lo (interpolate1 K x y xi out) /\ fle (interpolate1 K x y xi out) hi.
  Proof.
    intros Hx Hy HI Hk X1 X2 Y1 Y2 Y3 Y4.
    assert (E : interpolate1 K x y xi out = segment x y xi k).
    { destruct (fle_cases K (at_ x (k - 1)) xi) as [C _]. destruct (C X1) as [L|L].
      - destruct (interpolate1_segment x y xi out Hx Hy) as (j & Hj & E & H1 & H2). rewrite E. f_equal. destruct (Nat.lt_trichotomy j k) as [T|[T|T]]; [|exact T|].
        + exfalso. specialize (H2 ltac:(lia)). assert (G : fle (at_ x j) (at_ x (k - 1))) by (destruct (Nat.eq_dec j (k - 1)) as [->|]; [apply fle_refl|apply flt_le; apply HI; lia]).
          pose proof (@fle_trans K _ _ _ H2 G) as B. unfold fle in B. congruence.
        + exfalso. specialize (H1 k ltac:(lia)). unfold fle in X2. congruence.
      - rewrite <- L. rewrite interpolate1_node by (try assumption; lia). destruct (segment_left x y k) as [S|S]; [symmetry; exact S|]. exfalso. exact (nodes_neq HI Hk S). }
    rewrite E. unfold segment. pose proof (nodes_neq HI Hk) as N. assert (P : flt K 0 (at_ x k - at_ x (k - 1)) = true) by (apply (proj1 (flt_sub K _ _)); apply HI; lia).
    revert X1 X2 Y1 Y2 Y3 Y4 N P. generalize (at_ x k) (at_ x (k - 1)) (at_ y k) (at_ y (k - 1)). intros x1 x0 y1 y0 X1 X2 Y1 Y2 Y3 Y4 N P.
    (* value = ((x1 - xi) y0 + (xi - x0) y1) / (x1 - x0) *)
    replace (fdiv K ((xi - x0) * (y1 - y0)) (x1 - x0) + y0) with (fdiv K ((x1 - xi) * y0 + (xi - x0) * y1) (x1 - x0)) by (field; exact N).
    assert (A : fle 0 (x1 - xi)) by (apply (proj1 (fle_sub K _ _)); exact X2). assert (B : fle 0 (xi - x0)) by (apply (proj1 (fle_sub K _ _)); exact X1).
    assert (W : forall c, c = fdiv K ((x1 - xi) * c + (xi - x0) * c) (x1 - x0)) by (intros c; field; exact N).
    split; [rewrite (W lo)|rewrite (W hi)]; apply fle_div; try exact P; apply fle_add2; apply fle_mul; assumption.
  Qed.

  (** ** Logarithmic interpolation *)
  Variable ln : Z -> K.
  Variable ofZ : Z -> K.
  Hypothesis ln_mono : forall a b, (1 <= a < b)%Z -> flt K (ln a) (ln b) = true.
  Hypothesis of_mono : forall a b, (a < b)%Z -> flt K (ofZ a) (ofZ b) = true.
  Hypothesis ln_below : forall a, (1 <= a)%Z -> fle (ln a) (ofZ a).
  Local Notation zt l i := (nth i%nat l 0%Z).
  Definition position (log : bool) (t : Z) : K := if log then ln t else ofZ t.
  (** The nodes of segment [j] as the query [t] sees them *)
  Definition seen (t : Z) (x : list Z) (j : nat) : K * K := log_nodes K ln ofZ (1 <? t)%Z (zt x (j - 1)) (zt x j).
  Definition log_segment (t : Z) (x : list Z) (y : list K) (j : nat) : K :=
    let xi := position (1 <? t)%Z t in
    fdiv K ((xi - fst (seen t x j)) * (at_ y j - at_ y (j - 1))) (snd (seen t x j) - fst (seen t x j)) + at_ y (j - 1).

  Lemma log_loop_spec t x y : forall m a x0 x1,
    (exists j, (a <= j < a + m)%nat /\ (t <= zt x j)%Z /\ (forall i, (a <= i < j)%nat -> (zt x i < t)%Z) /\
       log_loop K ln ofZ t (1 <? t)%Z (position (1 <? t)%Z t) x y (seq a m) x0 x1 = (fst (seen t x j), snd (seen t x j), Some (log_segment t x y j))) \/
    ((forall i, (a <= i < a + m)%nat -> (zt x i < t)%Z) /\
       log_loop K ln ofZ t (1 <? t)%Z (position (1 <? t)%Z t) x y (seq a m) x0 x1 = (if (m =? 0)%nat then (x0, x1, None) else (fst (seen t x (a + m - 1)), snd (seen t x (a + m - 1)), None))).
  Proof.
    induction m as [|m IH]; intros a x0 x1; [right; split; [intros; lia|reflexivity]|]. cbn [seq log_loop].
    rewrite (surjective_pairing (log_nodes K ln ofZ (1 <? t)%Z (zt x (a - 1)) (zt x a))). fold (seen t x a).
    destruct (Z.leb_spec t (zt x a)) as [E|E].
    - left. exists a. split; [lia|]. split; [exact E|]. split; [intros; lia|reflexivity].
    - destruct (IH (S a) (fst (seen t x a)) (snd (seen t x a))) as [(j & H1 & H2 & H3 & H4)|[H1 H2]].
      + left. exists j. split; [lia|]. split; [exact H2|]. split; [|exact H4]. intros i Hi. destruct (Nat.eq_dec i a) as [->|]; [exact E|]. apply H3. lia.
      + right. split; [intros i Hi; destruct (Nat.eq_dec i a) as [->|]; [exact E|apply H1; lia]|]. rewrite H2. cbn [Nat.eqb].
        destruct (Nat.eqb_spec m 0) as [E0|E0]; [rewrite E0; replace (a + 1 - 1)%nat with a by lia; reflexivity|]. replace (S a + m - 1)%nat with (a + S m - 1)%nat by lia. reflexivity.
  Qed.
  Definition increasing_times (x : list Z) : Prop := (0 <= zt x 0)%Z /\ forall i j, (i < j < length x)%nat -> (zt x i < zt x j)%Z.
  (** The mixed case: the first node is 0 and the second is above 1 *)
  Lemma log_interpolate1_segment x y t out : (2 <= length x)%nat -> length y = length x -> increasing_times x -> ((1 <= zt x 0)%Z \/ (3 <= length x)%nat \/ (t <= zt x 1)%Z) ->
    exists j, (1 <= j < length x)%nat /\ log_interpolate1 K ln ofZ x y t out = log_segment t x y j /\
      (forall i, (1 <= i < j)%nat -> (zt x i < t)%Z) /\ ((j < length x - 1)%nat -> (t <= zt x j)%Z).
  Proof.
    intros Hx Hy [HI0 HI] HC. unfold log_interpolate1. change (if (1 <? t)%Z then ln t else ofZ t) with (position (1 <? t)%Z t).
    destruct (log_loop_spec t x y (length x - 1) 1 0 0) as [(j & H1 & H2 & H3 & H4)|[H1 H2]].
    - rewrite H4. assert (F : flt K (snd (seen t x j)) (position (1 <? t)%Z t) = false).
      { unfold seen, log_nodes, position. destruct (Z.ltb_spec 1 t) as [L|L].
        - rewrite andb_true_r. destruct (Z.leb_spec 1 (zt x (j - 1))) as [G|G]; cbn [snd].
          + destruct (Z.eq_dec t (zt x j)) as [->|]; [apply flt_irrefl|]. apply flt_asym. apply ln_mono. lia.
          + apply fle_trans with (ofZ t); [apply ln_below; lia|]. destruct (Z.eq_dec t (zt x j)) as [<-|]; [apply fle_refl|apply flt_le; apply of_mono; lia].
        - rewrite andb_false_r. cbn [snd]. destruct (Z.eq_dec t (zt x j)) as [<-|]; [apply flt_irrefl|]. apply flt_asym. apply of_mono. lia. }
      rewrite F. exists j. split; [lia|]. split; [reflexivity|]. split; [exact H3|intros _; exact H2].
    - rewrite H2. set (n := length x) in *. replace (n - 1 =? 0)%nat with false by lia. replace (1 + (n - 1) - 1)%nat with (n - 1)%nat by lia.
      assert (L : (zt x (n - 1) < t)%Z) by (apply H1; lia). assert (P1 : (zt x 0 < zt x 1)%Z) by (apply HI; lia).
      assert (P2 : (zt x 1 <= zt x (n - 1))%Z) by (destruct (Nat.eq_dec 1 (n - 1)) as [<-|]; [lia|]; apply Z.lt_le_incl; apply HI; lia).
      assert (F : flt K (snd (seen t x (n - 1))) (position (1 <? t)%Z t) = true).
      { unfold seen, log_nodes, position. replace (1 <? t)%Z with true by lia. rewrite andb_true_r.
        assert (G : (1 <= zt x (n - 1 - 1))%Z).
        { destruct HC as [HC|[HC|HC]].
          - destruct (Nat.eq_dec (n - 1 - 1) 0) as [->|]; [exact HC|]. assert (zt x 0 < zt x (n - 1 - 1))%Z by (apply HI; lia). lia.
          - destruct (Nat.eq_dec (n - 1 - 1) 1) as [->|]; [lia|]. assert (zt x 1 < zt x (n - 1 - 1))%Z by (apply HI; lia). lia.
          - exfalso. lia. }
        replace (1 <=? zt x (n - 1 - 1))%Z with true by lia. cbn [snd]. apply ln_mono. assert (zt x (n - 1 - 1) < zt x (n - 1))%Z by (apply HI; lia). lia. }
      rewrite F. exists (n - 1)%nat. split; [lia|]. rewrite Hy. replace (n - 2)%nat with (n - 1 - 1)%nat by lia. split; [reflexivity|]. split; [|intros; lia]. intros i Hi. apply H1. lia.
  Qed.
  Lemma seen_neq t x j : increasing_times x -> (1 <= j < length x)%nat -> snd (seen t x j) - fst (seen t x j) <> 0.
  Proof.
    intros [H0 HI] Hj. assert (L : (zt x (j - 1) < zt x j)%Z) by (apply HI; lia).
    assert (F : flt K (fst (seen t x j)) (snd (seen t x j)) = true).
    { unfold seen, log_nodes. destruct (Z.leb_spec 1 (zt x (j - 1))); destruct (1 <? t)%Z; cbn [andb fst snd]; [apply ln_mono|apply of_mono|apply of_mono|apply of_mono]; lia. }
    apply (proj1 (flt_sub K _ _)) in F. intros E. rewrite E, flt_irrefl in F. discriminate.
  Qed.
  Lemma log_interpolate1_node x y k out : (2 <= length x)%nat -> length y = length x -> increasing_times x -> ((1 <= zt x 0)%Z \/ (zt x 1 = 1)%Z) -> (k < length x)%nat ->
    log_interpolate1 K ln ofZ x y (zt x k) out = at_ y k.
  Proof.
    intros Hx Hy HT HC Hk. pose proof HT as [H0 HI].
    assert (HC' : (1 <= zt x 0)%Z \/ (3 <= length x)%nat \/ (zt x k <= zt x 1)%Z).
    { destruct HC as [HC|HC]; [left; exact HC|]. right. destruct (Nat.le_gt_cases 3 (length x)); [left; assumption|right]. destruct k as [|[|k]]; [|lia|lia]. apply Z.lt_le_incl. apply HI. lia. }
    destruct (@log_interpolate1_segment x y (zt x k) out Hx Hy HT HC') as (j & Hj & E & H1 & H2). rewrite E. clear E.
    assert (LK : zt x 0%nat = 0%Z -> zt x 1 = 1%Z) by (destruct HC as [HC|HC]; intros; [lia|exact HC]).
    assert (MK : forall i, (1 <= i < length x)%nat -> (1 <= zt x i)%Z) by (intros i Hi; assert (zt x 0 < zt x i)%Z by (apply HI; lia); lia).
    pose proof (@seen_neq (zt x k) x j HT Hj) as N.
    destruct (Nat.eq_dec k 0) as [->|Hk0].
    - assert (j = 1)%nat as ->.
      { destruct (Nat.eq_dec j 1); [assumption|]. exfalso. specialize (H1 1%nat ltac:(lia)). pose proof (HI 0%nat 1%nat ltac:(lia)). lia. }
      unfold log_segment. assert (E : position (1 <? zt x 0)%Z (zt x 0) = fst (seen (zt x 0) x 1)).
      { unfold position, seen, log_nodes. cbn [Nat.sub]. destruct (Z.ltb_spec 1 (zt x 0)); [replace (1 <=? zt x 0)%Z with true by lia; reflexivity|]. rewrite andb_false_r. reflexivity. }
      rewrite E. revert N. generalize (fst (seen (zt x 0) x 1)) (snd (seen (zt x 0) x 1)). intros u v N. cbn [Nat.sub]. field. exact N.
    - assert (j = k)%nat as ->.
      { destruct (Nat.lt_trichotomy j k) as [L|[L|L]]; [|exact L|].
        - exfalso. specialize (H2 ltac:(lia)). pose proof (HI j k ltac:(lia)). lia.
        - exfalso. specialize (H1 k ltac:(lia)). lia. }
      unfold log_segment. assert (E : position (1 <? zt x k)%Z (zt x k) = snd (seen (zt x k) x k)).
      { unfold position, seen, log_nodes. destruct (Z.ltb_spec 1 (zt x k)) as [G|G]; [|rewrite andb_false_r; reflexivity]. rewrite andb_true_r.
        assert (1 <= zt x (k - 1))%Z.
        { destruct (Nat.eq_dec (k - 1) 0) as [Ek|]; [|apply MK; lia]. rewrite Ek. destruct (Z.eq_dec (zt x 0) 0) as [Z0|]; [|lia]. exfalso. specialize (LK Z0). replace k with 1%nat in G by lia. lia. }
        replace (1 <=? zt x (k - 1))%Z with true by lia. reflexivity. }
      rewrite E. revert N. generalize (fst (seen (zt x k) x k)) (snd (seen (zt x k) x k)). intros u v N. field. exact N.
  Qed.
  (** Data linear in the logarithm *)
  Lemma log_interpolate1_linear x y a b t out : (2 <= length x)%nat -> length y = length x -> increasing_times x -> (1 <= zt x 0)%Z -> (1 < t)%Z ->
    (forall k, (k < length x)%nat -> at_ y k = a * ln (zt x k) + b) -> log_interpolate1 K ln ofZ x y t out = a * ln t + b.
  Proof.
    intros Hx Hy HT H1 Ht HD. destruct (@log_interpolate1_segment x y t out Hx Hy HT (or_introl H1)) as (j & Hj & E & _). rewrite E. unfold log_segment.
    pose proof (@seen_neq t x j HT Hj) as N. revert N. unfold position, seen, log_nodes. replace (1 <? t)%Z with true by lia. rewrite andb_true_r.
    assert (1 <= zt x (j - 1))%Z by (destruct HT as [_ HI]; destruct (Nat.eq_dec (j - 1) 0) as [->|]; [exact H1|]; pose proof (HI 0%nat (j - 1)%nat ltac:(lia)); lia).
    replace (1 <=? zt x (j - 1))%Z with true by lia. cbn [fst snd]. rewrite !HD by lia. generalize (ln (zt x j)) (ln (zt x (j - 1))). intros u v N. field. exact N.
  Qed.
End Interpolate.
