(** The API functions of CoreModel.v compute the pair sums of PairSpec.v. *)
From Verif Require Import Base Kernels PairSpec KernelProofs PairLemmas RegularProofs SumProofs CoreModel.
From Coq Require Import ZifyBool ZifyNat.
Ltac Zify.zify_post_hook ::= Z.div_mod_to_equations.
Set Implicit Arguments.

(* ------------------------------------------------------------------ *)
(** * Arrays *)

Lemma nth_repeat_any A (x d : A) n k : (k < n)%nat -> nth k (repeat x n) d = x.
Proof.
  revert k; induction n as [|n IH]; intros k H; [lia|]. destruct k; simpl; [reflexivity|]. apply IH; lia.
Qed.

Lemma plus_cells_zero (M : CMon) n f : plus_cells M (repeat (m0 M) n) f = map f (seq 0 n).
Proof.
  unfold plus_cells. rewrite repeat_length. apply map_ext_in. intros k Hk.
  rewrite nth_repeat_any by (apply in_seq in Hk; lia). apply madd_0_l.
Qed.

Lemma zip_add_map (M : CMon) (out : list M) f :
  zip_add M out (map f (seq 0 (length out))) = plus_cells M out f.
Proof.
  unfold zip_add, plus_cells.
  enough (H : forall (l : list M) s, map (fun p => madd M (fst p) (snd p)) (combine l (map f (seq s (length l)))) =
     map (fun k => madd M (nth (k - s) l (m0 M)) (f k)) (seq s (length l))).
  { rewrite H. apply map_ext. intros k. rewrite Nat.sub_0_r. reflexivity. }
  induction l as [|x l IH]; intros s; [reflexivity|]. cbn [length seq map combine fst snd].
  rewrite Nat.sub_diag. simpl nth. f_equal. rewrite IH. apply map_ext_in. intros k Hk.
  apply in_seq in Hk. replace (k - s)%nat with (S (k - S s)) by lia. reflexivity.
Qed.

Lemma zip_add_length (M : CMon) (a b : list M) : length a = length b -> length (zip_add M a b) = length a.
Proof. intros H. unfold zip_add. rewrite map_length, combine_length. lia. Qed.

Lemma nth_zip_add (M : CMon) (a b : list M) k : length a = length b ->
  nth k (zip_add M a b) (m0 M) = madd M (nth k a (m0 M)) (nth k b (m0 M)).
Proof.
  revert b k; induction a as [|x a IH]; intros [|y b] k H; try discriminate.
  - destruct k; simpl; symmetry; apply madd_0_l.
  - destruct k; simpl; [reflexivity|]. apply IH. simpl in H; lia.
Qed.

Lemma lsum_map_seq (M : CMon) (f : nat -> M) n : lsum M (map f (seq 0 n)) = Sum M (seq 0 n) f.
Proof. reflexivity. Qed.

(* ------------------------------------------------------------------ *)
(** * Time arithmetic *)

Lemma zmin_list_ok t : t <> [] -> exists m, zmin_list t = Ok m.
Proof. destruct t as [|x l]; [congruence|]. intros _. eexists; reflexivity. Qed.
Lemma zmax_list_ok t : t <> [] -> exists m, zmax_list t = Ok m.
Proof. destruct t as [|x l]; [congruence|]. intros _. eexists; reflexivity. Qed.

Lemma zmin_list_shift c t :
  zmin_list (map (fun x => x - c)%Z t) = let* m := zmin_list t in Ok (m - c)%Z.
Proof.
  destruct t as [|x l]; [reflexivity|]. simpl. f_equal. revert x.
  induction l as [|y l IH]; intros x; simpl; [reflexivity|].
  rewrite <- IH. f_equal. lia.
Qed.
Lemma zmax_list_shift c t :
  zmax_list (map (fun x => x - c)%Z t) = let* m := zmax_list t in Ok (m - c)%Z.
Proof.
  destruct t as [|x l]; [reflexivity|]. simpl. f_equal. revert x.
  induction l as [|y l IH]; intros x; simpl; [reflexivity|].
  rewrite <- IH. f_equal. lia.
Qed.

Lemma len_nonnil A (l : list A) : l <> [] -> length l <> 0%nat.
Proof. destruct l; simpl; congruence. Qed.

Lemma nonnil_len A B (l : list A) (l' : list B) : length l = length l' -> l' <> [] -> l <> [].
Proof. destruct l, l'; simpl; congruence. Qed.

(* ------------------------------------------------------------------ *)
(** * Generic theorems about run_cross and run_auto *)

Section RunCross.
  Variables (A : Type) (M : CMon).
  Variable complex : bool.
  Variable kreg : list A -> list A -> list M -> res (list M).
  Variable kirr : list A -> list A -> list Z -> list Z -> list M -> list M.
  Variable S : nat -> list (sample A) -> list (sample A) -> nat -> M.
  (** [okout l]: admissible length of the output array; [dl l]: its number of delays *)
  Variable okout : nat -> Prop.
  Variable dl : nat -> nat.
  Hypothesis Hreg : forall x y out, length x = length y -> okout (length out) ->
    (dl (length out) <= length x + 1)%nat ->
    kreg x y out = Ok (plus_cells M out (S (length out) (regular x) (regular y))).
  Hypothesis Hirr : forall x y t1 t2 out, length x = length t1 -> length y = length t2 -> okout (length out) ->
    kirr x y t1 t2 out = plus_cells M out (S (length out) (combine x t1) (combine y t2)).
  Hypothesis Hshift : forall l m d1 d2 k,
    S l (map (shift_time m) d1) (map (shift_time m) d2) k = S l d1 d2 k.

  Let run := run_cross (m0 M) complex kreg kirr.

  Lemma run_cross_aout f1 f2 t1 t2 n aligned out :
    valid_cross f1 f2 t1 t2 -> okout (length out) ->
    (t1 = None -> aligned = true -> dl (length out) <= length f1 + 1)%nat ->
    run f1 f2 t1 t2 n aligned (Some out) =
    Ok (plus_cells M out (S (length out) (samples f1 t1) (samples f2 t2))).
  Proof.
    intros [HL HV] Ho Hn. unfold run, run_cross, _inspect_cross_arguments. simpl option_map.
    rewrite HL, Nat.eqb_refl. cbn [negb].
    destruct t1 as [t1|], t2 as [t2|]; try contradiction; cbn [bind samples].
    - destruct HV as (H1 & H2 & Hne).
      assert (E : exists N, match n with
        | Some n0 => Ok n0
        | None => Ok (if complex then ((length out + 1) / 2)%nat else length out)
        end = Ok N) by (destruct n; eexists; reflexivity).
      destruct E as [N E]. rewrite E. cbn [bind]. unfold _shift_cross.
      destruct (@zmin_list_ok t1) as [m1 E1]; [eapply nonnil_len; [exact H1|exact Hne]|].
      destruct (@zmin_list_ok t2) as [m2 E2]; [eapply nonnil_len; [exact (eq_trans H2 (eq_sym HL))|exact Hne]|].
      rewrite E1, E2. cbn [bind fst snd _default_out]. rewrite !map_length, <- HL.
      replace (length f1 =? length t1)%nat with true by (symmetry; apply Nat.eqb_eq; lia).
      replace (length f1 =? length t2)%nat with true by (symmetry; apply Nat.eqb_eq; lia).
      cbn [andb]. f_equal. rewrite Hirr by (rewrite ?map_length; auto; lia).
      rewrite !combine_shift. apply plus_cells_ext. intros k _. apply Hshift.
    - assert (E : exists N, match n with
        | Some n0 => Ok n0
        | None => Ok (if complex then ((length out + 1) / 2)%nat else length out)
        end = Ok N) by (destruct n; eexists; reflexivity).
      destruct E as [N E]. rewrite E. cbn [bind fst snd _default_out].
      destruct aligned; [apply Hreg; auto|].
      f_equal. rewrite Hirr by (rewrite ?arange_length; auto). unfold regular. rewrite HL. reflexivity.
  Qed.

  Lemma run_cross_fresh f1 f2 t1 t2 n aligned :
    run f1 f2 t1 t2 (Some n) aligned None =
    let* out := _default_out (m0 M) None n complex in
    run f1 f2 t1 t2 (Some n) aligned (Some out).
  Proof.
    unfold run, run_cross, _inspect_cross_arguments. cbn [option_map].
    destruct (_default_out (m0 M) None n complex) as [o|e] eqn:E.
    - cbn [bind]. destruct t1, t2; cbn [bind]; try reflexivity;
      destruct (length f1 =? length f2)%nat; cbn [negb bind]; try reflexivity;
      try (destruct (_shift_cross _ _) as [[? ?]|]; cbn [bind]); try reflexivity; rewrite E; reflexivity.
    - (* n = 0 in complex mode *)
      assert (e = ValueError) as -> by (simpl in E; destruct complex, (n =? 0)%nat; congruence).
      cbn [bind]. destruct t1 as [t1|], t2 as [t2|]; cbn [bind]; try reflexivity;
      destruct (length f1 =? length f2)%nat; cbn [negb bind]; try reflexivity.
      + unfold _shift_cross. destruct t1 as [|x t1]; [reflexivity|]. destruct t2 as [|y t2]; [reflexivity|].
        cbn [zmin_list bind]. rewrite E. reflexivity.
      + rewrite E. reflexivity.
  Qed.

  Lemma run_cross_default f1 f2 t1 t2 aligned N :
    _determine_full_length_cross (length f1)
       match t1, t2 with Some t1, Some t2 => Some (t1, t2) | _, _ => None end = Ok N ->
    run f1 f2 t1 t2 None aligned None = run f1 f2 t1 t2 (Some N) aligned None.
  Proof.
    clear S okout dl Hreg Hirr Hshift. intros H. unfold run, run_cross, _inspect_cross_arguments. cbn [option_map].
    destruct t1 as [t1|], t2 as [t2|]; cbn [bind]; try reflexivity; rewrite H; reflexivity.
  Qed.

  Lemma run_cross_shift c f1 f2 t1 t2 n aligned aout :
    run f1 f2 (Some (map (fun t => t - c)%Z t1)) (Some (map (fun t => t - c)%Z t2)) n aligned aout =
    run f1 f2 (Some t1) (Some t2) n aligned aout.
  Proof.
    clear S okout dl Hreg Hirr Hshift. unfold run, run_cross, _inspect_cross_arguments. cbn [bind].
    destruct (length f1 =? length f2)%nat; cbn [negb bind]; [|reflexivity].
    unfold _determine_full_length_cross, _shift_cross.
    rewrite !zmin_list_shift, !zmax_list_shift.
    destruct t1 as [|x1 t1]; [destruct n; [reflexivity|]; destruct aout; reflexivity|].
    destruct t2 as [|x2 t2]; [destruct n; [reflexivity|]; destruct aout; reflexivity|].
    cbn [zmin_list zmax_list bind fst snd].
    set (a := fold_left Z.min t1 x1). set (b := fold_left Z.min t2 x2).
    set (u := fold_left Z.max t1 x1). set (v := fold_left Z.max t2 x2).
    replace (v - c - (a - c))%Z with (v - a)%Z by lia.
    replace (u - c - (b - c))%Z with (u - b)%Z by lia.
    assert (E : forall l : list Z, map (fun t => t - Z.min (a - c) (b - c))%Z (map (fun t => t - c)%Z l) =
                    map (fun t => t - Z.min a b)%Z l).
    { intros l. rewrite map_map. apply map_ext. intros t. lia. }
    rewrite !E. reflexivity.
  Qed.

  Lemma run_cross_invalid f1 f2 t1 t2 n aligned aout :
    ~ valid_cross f1 f2 t1 t2 -> run f1 f2 t1 t2 n aligned aout = Raise ValueError.
  Proof.
    clear S okout dl Hreg Hirr Hshift. intros HV. unfold run, run_cross, _inspect_cross_arguments.
    destruct t1 as [t1|], t2 as [t2|]; cbn [bind]; try reflexivity.
    - destruct (Nat.eqb_spec (length f1) (length f2)) as [HL|HL]; cbn [negb bind]; [|reflexivity].
      set (nn := match n with Some n => _ | None => _ end).
      assert (E1 : nn = Raise ValueError \/ exists N, nn = Ok N).
      { unfold nn. destruct n; [right; eexists; reflexivity|].
        destruct aout; [right; eexists; reflexivity|]. simpl.
        destruct t1; [left; reflexivity|]. destruct t2; [left; reflexivity|].
        right. eexists. reflexivity. }
      destruct E1 as [->|[N ->]]; [reflexivity|]. cbn [bind].
      unfold _shift_cross. destruct t1 as [|x1 t1]; [reflexivity|]. destruct t2 as [|x2 t2]; [reflexivity|].
      cbn [zmin_list bind fst snd].
      destruct (_default_out (m0 M) aout N complex) as [o|e] eqn:E.
      + cbn [bind]. rewrite !map_length.
        destruct (Nat.eqb_spec (length f1) (length (x1 :: t1))) as [H1|H1]; [|reflexivity].
        destruct (Nat.eqb_spec (length f2) (length (x2 :: t2))) as [H2|H2]; [|reflexivity].
        exfalso. apply HV. split; [exact HL|]. split; [lia|]. split; [lia|].
        destruct f1; [discriminate|congruence].
      + cbn [bind]. unfold _default_out in E. destruct aout; [discriminate|].
        destruct complex; [|discriminate]. destruct (N =? 0)%nat; congruence.
    - destruct (Nat.eqb_spec (length f1) (length f2)) as [HL|HL]; cbn [negb bind]; [|reflexivity].
      exfalso. apply HV. split; [exact HL|exact I].
  Qed.
End RunCross.

Section RunAuto.
  Variables (A : Type) (M : CMon).
  Variable kreg : list A -> list M -> res (list M).
  Variable kirr : list A -> list Z -> list M -> list M.
  Variable S : list (sample A) -> nat -> M.
  Hypothesis Hreg : forall x out, (length out <= length x + 1)%nat ->
    kreg x out = Ok (plus_cells M out (S (regular x))).
  Hypothesis Hirr : forall x t out, length x = length t ->
    kirr x t out = plus_cells M out (S (combine x t)).
  Hypothesis Hshift : forall m d k, S (map (shift_time m) d) k = S d k.

  Let run := run_auto (m0 M) kreg kirr.

  Lemma run_auto_aout f t n aligned out :
    valid_auto f t ->
    (t = None -> aligned = true -> length out <= length f + 1)%nat ->
    run f t n aligned (Some out) = Ok (plus_cells M out (S (samples f t))).
  Proof.
    intros HV Hn. unfold run, run_auto, _inspect_auto_arguments. simpl option_map.
    assert (E : exists N, match n with Some n0 => Ok n0 | None => Ok (length out) end = Ok N)
      by (destruct n; eexists; reflexivity).
    destruct E as [N ->]. destruct t as [t|]; cbn [bind samples].
    - destruct HV as (H1 & Hne).
      destruct (@zmin_list_ok t) as [m1 E1]; [eapply nonnil_len; [exact H1|exact Hne]|].
      rewrite E1. cbn [bind fst snd _default_out]. rewrite !map_length.
      replace (length f =? length t)%nat with true by (symmetry; apply Nat.eqb_eq; lia).
      f_equal. rewrite Hirr by (rewrite ?map_length; auto; lia).
      rewrite !combine_shift. apply plus_cells_ext. intros k _. apply Hshift.
    - cbn [_default_out bind]. destruct aligned; [apply Hreg; auto|].
      f_equal. rewrite Hirr by (rewrite ?arange_length; auto). reflexivity.
  Qed.

  Lemma run_auto_fresh f t n aligned :
    run f t (Some n) aligned None = run f t (Some n) aligned (Some (repeat (m0 M) n)).
  Proof.
    unfold run, run_auto, _inspect_auto_arguments. cbn [option_map].
    destruct t as [t|]; cbn [bind]; [destruct (zmin_list t)|]; reflexivity.
  Qed.

  Lemma run_auto_default f t aligned N :
    _determine_full_length_auto (length f) t = Ok N ->
    run f t None aligned None = run f t (Some N) aligned None.
  Proof.
    clear S Hreg Hirr Hshift. intros H. unfold run, run_auto, _inspect_auto_arguments. cbn [option_map]. rewrite H. reflexivity.
  Qed.

  Lemma run_auto_shift c f t n aligned aout :
    run f (Some (map (fun t => t - c)%Z t)) n aligned aout = run f (Some t) n aligned aout.
  Proof.
    clear S Hreg Hirr Hshift. unfold run, run_auto, _inspect_auto_arguments, _determine_full_length_auto.
    rewrite zmin_list_shift, zmax_list_shift.
    destruct t as [|x t]; [destruct n; [reflexivity|]; destruct aout; reflexivity|].
    cbn [zmin_list zmax_list bind].
    set (a := fold_left Z.min t x). set (u := fold_left Z.max t x).
    replace (1 + (u - c) - (a - c))%Z with (1 + u - a)%Z by lia.
    assert (E : forall l : list Z, map (fun x => x - (a - c))%Z (map (fun t => t - c)%Z l) =
                    map (fun t => t - a)%Z l).
    { intros l. rewrite map_map. apply map_ext. intros y. lia. }
    rewrite E. reflexivity.
  Qed.

  Lemma run_auto_invalid f t n aligned aout :
    ~ valid_auto f t -> run f t n aligned aout = Raise ValueError.
  Proof.
    clear S Hreg Hirr Hshift. intros HV. unfold run, run_auto, _inspect_auto_arguments.
    destruct t as [t|]; [|exfalso; apply HV; exact I].
    set (nn := match n with Some n => _ | None => _ end).
    assert (E1 : nn = Raise ValueError \/ exists N, nn = Ok N).
    { unfold nn. destruct n; [right; eexists; reflexivity|].
      destruct aout; [right; eexists; reflexivity|]. simpl.
      destruct t; [left; reflexivity|]. right. eexists. reflexivity. }
    destruct E1 as [->|[N ->]]; [reflexivity|]. cbn [bind].
    destruct t as [|x1 t1]; [reflexivity|]. cbn [zmin_list bind fst snd].
    replace (_default_out (m0 M) aout N false) with
      (Ok (match aout with Some o => o | None => repeat (m0 M) N end)) by (destruct aout; reflexivity).
    cbn [bind]. rewrite map_length.
    destruct (Nat.eqb_spec (length f) (length (x1 :: t1))) as [H1|H1]; [|reflexivity].
    exfalso. apply HV. split; [lia|]. destruct f; [discriminate|congruence].
  Qed.
End RunAuto.

(* ------------------------------------------------------------------ *)
(** * The individual functions *)

(** Number of delays of an output array with [2n-1] entries. *)
Definition half_len (l : nat) : nat := ((l + 1) / 2)%nat.

Section Specs.
  Variable K : Fld.
  Notation C := (Cx K).

  Lemma corr_spec_shift m (d1 d2 : list (sample C)) k :
    corr_spec (map (shift_time m) d1) (map (shift_time m) d2) k = corr_spec d1 d2 k.
  Proof.
    unfold corr_spec. rewrite pairs_at_map by (intros; apply delay_shift). rewrite Sum_map. reflexivity.
  Qed.
  Lemma diff_spec_shift m (d1 d2 : list (sample C)) k :
    diff_spec (map (shift_time m) d1) (map (shift_time m) d2) k = diff_spec d1 d2 k.
  Proof.
    unfold diff_spec. rewrite pairs_at_map by (intros; apply delay_shift). rewrite Sum_map. reflexivity.
  Qed.
  Lemma corr_complex_spec_shift m (d1 d2 : list (sample C)) k :
    corr_complex_spec (map (shift_time m) d1) (map (shift_time m) d2) k = corr_complex_spec d1 d2 k.
  Proof.
    unfold corr_complex_spec. rewrite pairs_signed_map by (intros; apply delay_shift).
    rewrite Sum_map. reflexivity.
  Qed.
  Lemma acorr_spec_shift m (d : list (sample C)) k : acorr_spec (map (shift_time m) d) k = acorr_spec d k.
  Proof.
    unfold acorr_spec. rewrite upairs_at_map by (intros; apply delay_shift). rewrite Sum_map. reflexivity.
  Qed.
  Lemma adiff_spec_shift m (d : list (sample C)) k : adiff_spec (map (shift_time m) d) k = adiff_spec d k.
  Proof.
    unfold adiff_spec. rewrite upairs_at_map by (intros; apply delay_shift). rewrite Sum_map. reflexivity.
  Qed.
  Lemma acorr_complex_spec_shift m (d : list (sample C)) k :
    acorr_complex_spec (map (shift_time m) d) k = acorr_complex_spec d k.
  Proof.
    unfold acorr_complex_spec. rewrite upairs_at_map by (intros; apply delay_shift). rewrite Sum_map.
    apply Sum_ext. intros [[x s] [y t]] _. unfold cx_prod_ordered, cx_prod, map_pair, shift_time; simpl.
    replace (s - m <=? t - m)%Z with (s <=? t)%Z by lia. reflexivity.
  Qed.

  Lemma half_len_odd n : (0 < n)%nat -> half_len (2 * n - 1) = n.
  Proof. unfold half_len; lia. Qed.

  (** ** cross_correlate *)
  Theorem cross_correlate_aout (f1 f2 : list C) t1 t2 n aligned out :
    valid_cross f1 f2 t1 t2 ->
    (t1 = None -> aligned = true -> length out <= length f1 + 1)%nat ->
    cross_correlate f1 f2 t1 t2 n aligned (Some out) =
    Ok (plus_cells (fmon K) out (corr_spec (samples f1 t1) (samples f2 t2))).
  Proof.
    intros HV Hn.
    apply (@run_cross_aout C (fmon K) false (@_cross_corr_regular K) (@_cross_corr K)
             (fun _ => @corr_spec K) (fun _ => True) (fun l => l)); auto.
    - intros; apply _cross_corr_regular_spec; auto.
    - intros; apply _cross_corr_spec; auto.
    - intros; apply corr_spec_shift.
  Qed.

  Theorem cross_correlate_fresh (f1 f2 : list C) t1 t2 n aligned :
    valid_cross f1 f2 t1 t2 -> (t1 = None -> aligned = true -> n <= length f1 + 1)%nat ->
    cross_correlate f1 f2 t1 t2 (Some n) aligned None =
    Ok (map (corr_spec (samples f1 t1) (samples f2 t2)) (seq 0 n)).
  Proof.
    intros HV Hn. unfold cross_correlate.
    etransitivity; [exact (@run_cross_fresh C (fmon K) false (@_cross_corr_regular K) (@_cross_corr K) f1 f2 t1 t2 n aligned)|].
    cbn [_default_out bind].
    etransitivity; [apply cross_correlate_aout; [exact HV|]|].
    - intros. rewrite repeat_length. auto.
    - f_equal. exact (plus_cells_zero (fmon K) n _).
  Qed.

  (** ** cross_correlate, complex *)
  Theorem cross_correlate_complex_aout (f1 f2 : list C) t1 t2 n aligned out m :
    valid_cross f1 f2 t1 t2 -> length out = (2 * m - 1)%nat -> (0 < m)%nat ->
    (t1 = None -> aligned = true -> m <= length f1 + 1)%nat ->
    cross_correlate_complex f1 f2 t1 t2 n aligned (Some out) =
    Ok (plus_cells (cmon K) out (fun i => corr_complex_spec (samples f1 t1) (samples f2 t2) (lag_at m i))).
  Proof.
    intros HV Hl Hm Hn.
    etransitivity;
    [apply (@run_cross_aout C (cmon K) true (@_cross_corr_complex_regular K) (@_cross_corr_complex K)
             (fun l d1 d2 i => corr_complex_spec d1 d2 (lag_at (half_len l) i))
             (fun l => l = 2 * half_len l - 1)%nat half_len)|].
    - intros x y o HL Ho Hd. apply _cross_corr_complex_regular_spec; auto.
    - intros; apply _cross_corr_complex_spec; auto.
    - intros; apply corr_complex_spec_shift.
    - exact HV.
    - cbn [mcar cmon] in *. rewrite Hl, half_len_odd by assumption. reflexivity.
    - cbn [mcar cmon] in *. rewrite Hl, half_len_odd by assumption. exact Hn.
    - cbn [mcar cmon] in *. rewrite Hl, half_len_odd by assumption. reflexivity.
  Qed.

  Theorem cross_correlate_complex_fresh (f1 f2 : list C) t1 t2 n aligned :
    valid_cross f1 f2 t1 t2 -> (0 < n)%nat -> (t1 = None -> aligned = true -> n <= length f1 + 1)%nat ->
    cross_correlate_complex f1 f2 t1 t2 (Some n) aligned None =
    Ok (map (fun i => corr_complex_spec (samples f1 t1) (samples f2 t2) (lag_at n i)) (seq 0 (2 * n - 1))).
  Proof.
    intros HV H0 Hn. unfold cross_correlate_complex.
    etransitivity; [exact (@run_cross_fresh C (cmon K) true (@_cross_corr_complex_regular K) (@_cross_corr_complex K) f1 f2 t1 t2 n aligned)|].
    cbn [_default_out]. replace (n =? 0)%nat with false by (symmetry; apply Nat.eqb_neq; lia). cbn [bind].
    etransitivity; [apply (@cross_correlate_complex_aout f1 f2 t1 t2 (Some n) aligned _ n HV)|].
    - apply repeat_length.
    - exact H0.
    - exact Hn.
    - f_equal. exact (plus_cells_zero (cmon K) (2 * n - 1) _).
  Qed.

  (** ** cross_difference *)
  Theorem cross_difference_aout (f1 f2 : list C) t1 t2 n aligned out :
    valid_cross f1 f2 t1 t2 ->
    (t1 = None -> aligned = true -> length out <= length f1 + 1)%nat ->
    cross_difference f1 f2 t1 t2 n aligned (Some out) =
    Ok (plus_cells (fmon K) out (diff_spec (samples f1 t1) (samples f2 t2))).
  Proof.
    intros HV Hn.
    apply (@run_cross_aout C (fmon K) false (@_cross_diff_regular K) (@_cross_diff K)
             (fun _ => @diff_spec K) (fun _ => True) (fun l => l)); auto.
    - intros; apply _cross_diff_regular_spec; auto.
    - intros; apply _cross_diff_spec; auto.
    - intros; apply diff_spec_shift.
  Qed.

  Theorem cross_difference_fresh (f1 f2 : list C) t1 t2 n aligned :
    valid_cross f1 f2 t1 t2 -> (t1 = None -> aligned = true -> n <= length f1 + 1)%nat ->
    cross_difference f1 f2 t1 t2 (Some n) aligned None =
    Ok (map (diff_spec (samples f1 t1) (samples f2 t2)) (seq 0 n)).
  Proof.
    intros HV Hn. unfold cross_difference.
    etransitivity; [exact (@run_cross_fresh C (fmon K) false (@_cross_diff_regular K) (@_cross_diff K) f1 f2 t1 t2 n aligned)|].
    cbn [_default_out bind].
    etransitivity; [apply cross_difference_aout; [exact HV|]|].
    - intros. rewrite repeat_length. auto.
    - f_equal. exact (plus_cells_zero (fmon K) n _).
  Qed.

  (** ** auto_correlate, auto_difference *)
  Theorem auto_correlate_aout (f : list C) t n aligned out :
    valid_auto f t -> (t = None -> aligned = true -> length out <= length f + 1)%nat ->
    auto_correlate f t n aligned (Some out) = Ok (plus_cells (fmon K) out (acorr_spec (samples f t))).
  Proof.
    intros HV Hn.
    apply (@run_auto_aout C (fmon K) (@_auto_corr_regular K) (@_auto_corr K) (@acorr_spec K)); auto.
    - intros; apply _auto_corr_regular_spec; auto.
    - intros; apply _auto_corr_spec; auto.
    - intros; apply acorr_spec_shift.
  Qed.
  Theorem auto_correlate_complex_aout (f : list C) t n aligned out :
    valid_auto f t -> (t = None -> aligned = true -> length out <= length f + 1)%nat ->
    auto_correlate_complex f t n aligned (Some out) =
    Ok (plus_cells (cmon K) out (acorr_complex_spec (samples f t))).
  Proof.
    intros HV Hn.
    apply (@run_auto_aout C (cmon K) (@_auto_corr_complex_regular K) (@_auto_corr_complex K) (@acorr_complex_spec K)); auto.
    - intros; apply _auto_corr_complex_regular_spec; auto.
    - intros; apply _auto_corr_complex_spec; auto.
    - intros; apply acorr_complex_spec_shift.
  Qed.
  Theorem auto_difference_aout (f : list C) t n aligned out :
    valid_auto f t -> (t = None -> aligned = true -> length out <= length f + 1)%nat ->
    auto_difference f t n aligned (Some out) = Ok (plus_cells (fmon K) out (adiff_spec (samples f t))).
  Proof.
    intros HV Hn.
    apply (@run_auto_aout C (fmon K) (@_auto_diff_regular K) (@_auto_diff K) (@adiff_spec K)); auto.
    - intros; apply _auto_diff_regular_spec; auto.
    - intros; apply _auto_diff_spec; auto.
    - intros; apply adiff_spec_shift.
  Qed.

  Theorem auto_correlate_fresh (f : list C) t n aligned :
    valid_auto f t -> (t = None -> aligned = true -> n <= length f + 1)%nat ->
    auto_correlate f t (Some n) aligned None = Ok (map (acorr_spec (samples f t)) (seq 0 n)).
  Proof.
    intros HV Hn. unfold auto_correlate.
    etransitivity; [exact (@run_auto_fresh C (fmon K) (@_auto_corr_regular K) (@_auto_corr K) f t n aligned)|].
    etransitivity; [apply auto_correlate_aout; [exact HV|]|].
    - intros. cbn [mcar fmon]. rewrite repeat_length. auto.
    - f_equal. exact (plus_cells_zero (fmon K) n _).
  Qed.
  Theorem auto_correlate_complex_fresh (f : list C) t n aligned :
    valid_auto f t -> (t = None -> aligned = true -> n <= length f + 1)%nat ->
    auto_correlate_complex f t (Some n) aligned None = Ok (map (acorr_complex_spec (samples f t)) (seq 0 n)).
  Proof.
    intros HV Hn. unfold auto_correlate_complex.
    etransitivity; [exact (@run_auto_fresh C (cmon K) (@_auto_corr_complex_regular K) (@_auto_corr_complex K) f t n aligned)|].
    etransitivity; [apply auto_correlate_complex_aout; [exact HV|]|].
    - intros. cbn [mcar cmon]. rewrite repeat_length. auto.
    - f_equal. exact (plus_cells_zero (cmon K) n _).
  Qed.
  Theorem auto_difference_fresh (f : list C) t n aligned :
    valid_auto f t -> (t = None -> aligned = true -> n <= length f + 1)%nat ->
    auto_difference f t (Some n) aligned None = Ok (map (adiff_spec (samples f t)) (seq 0 n)).
  Proof.
    intros HV Hn. unfold auto_difference.
    etransitivity; [exact (@run_auto_fresh C (fmon K) (@_auto_diff_regular K) (@_auto_diff K) f t n aligned)|].
    etransitivity; [apply auto_difference_aout; [exact HV|]|].
    - intros. cbn [mcar fmon]. rewrite repeat_length. auto.
    - f_equal. exact (plus_cells_zero (fmon K) n _).
  Qed.
End Specs.
