(** The exact discrete Fourier transform computes circular correlations. *)
From Verif Require Import Base Kernels PairSpec KernelProofs PairLemmas CoreModel CoreProofs FftModel.
From Coq Require Import Setoid.
Set Implicit Arguments.

(** [w] behaves like exp(-2*pi*i/N). *)
Definition is_root (K : Fld) (N : nat) (w : Cx K) : Prop :=
  cmul w (conj w) = c1 K /\ cpow w N = c1 K /\
  forall m, (0 < m < N)%nat -> Sum (cmon K) (seq 0 N) (fun j => cpow w (j * m)) = c0 K.

Section Algebra.
  Variable K : Fld.
  Notation C := (Cx K).
  Add Field Kf : (flaw K).
  Add Ring Cr : (c_ring K).
  Notation csum := (Sum (cmon K)).

  Lemma cpow_add (z : C) a b : cpow z (a + b) = cmul (cpow z a) (cpow z b).
  Proof.
    induction a as [|a IH]; cbn [cpow Nat.add].
    - ring.
    - rewrite IH. ring.
  Qed.
  Lemma cpow_1 n : cpow (c1 K) n = c1 K.
  Proof. induction n as [|n IH]; cbn [cpow]; [reflexivity|]. rewrite IH. ring. Qed.
  Lemma cpow_cmul (z w : C) n : cpow (cmul z w) n = cmul (cpow z n) (cpow w n).
  Proof. induction n as [|n IH]; cbn [cpow]; [ring|]. rewrite IH. ring. Qed.
  Lemma cpow_mul (z : C) a b : cpow z (a * b) = cpow (cpow z a) b.
  Proof.
    induction b as [|b IH]; [rewrite Nat.mul_0_r; reflexivity|].
    rewrite Nat.mul_succ_r, cpow_add, IH. cbn [cpow]. ring.
  Qed.
  Lemma conj_add (z w : C) : conj (cadd z w) = cadd (conj z) (conj w).
  Proof. destruct z, w; unfold conj, cadd, cre, cim; cbn [fst snd]. f_equal; ring. Qed.
  Lemma conj_mul (z w : C) : conj (cmul z w) = cmul (conj z) (conj w).
  Proof. destruct z, w; unfold conj, cmul, cre, cim; cbn [fst snd]. f_equal; ring. Qed.
  Lemma conj_conj (z : C) : conj (conj z) = z.
  Proof. destruct z; unfold conj, cre, cim; cbn [fst snd]. f_equal; ring. Qed.
  Lemma conj_0 : conj (c0 K) = c0 K.
  Proof. unfold conj, c0, cre, cim; cbn [fst snd]. f_equal; ring. Qed.
  Lemma conj_1 : conj (c1 K) = c1 K.
  Proof. unfold conj, c1, cre, cim; cbn [fst snd]. f_equal; ring. Qed.
  Lemma conj_pow (z : C) n : conj (cpow z n) = cpow (conj z) n.
  Proof. induction n as [|n IH]; cbn [cpow]; [apply conj_1|]. rewrite conj_mul, IH. reflexivity. Qed.
  Lemma conj_Sum A (l : list A) f : conj (csum l f) = csum l (fun x => conj (f x)).
  Proof.
    induction l as [|x l IH]; [exact conj_0|]. rewrite !Sum_cons. cbn [madd cmon].
    rewrite conj_add, IH. reflexivity.
  Qed.
  Lemma Sum_cmul_l A (a : C) (l : list A) f : cmul a (csum l f) = csum l (fun x => cmul a (f x)).
  Proof.
    induction l as [|x l IH].
    - change (cmul a (c0 K) = c0 K). ring.
    - rewrite !Sum_cons, <- IH. cbn [madd cmon]. ring.
  Qed.
  Lemma Sum_cmul_r A (a : C) (l : list A) f : cmul (csum l f) a = csum l (fun x => cmul (f x) a).
  Proof.
    induction l as [|x l IH].
    - change (cmul (c0 K) a = c0 K). ring.
    - rewrite !Sum_cons, <- IH. cbn [madd cmon]. ring.
  Qed.
  Lemma cscal_mul (a : K) (z : C) : cscal a z = cmul (cofre a) z.
  Proof. destruct z; unfold cscal, cmul, cofre, cre, cim; cbn [fst snd]. f_equal; ring. Qed.

  Lemma Sum_ones n s : csum (seq s n) (fun _ => c1 K) = cofre (fnat K n).
  Proof.
    revert s. induction n as [|n IH]; intros s; [reflexivity|].
    cbn [seq]. rewrite Sum_cons, IH. cbn [madd cmon]. rewrite fnat_S.
    unfold cadd, c1, cofre, cre, cim; cbn [fst snd]. f_equal. ring.
  Qed.

  (** A sum with a single non-zero term. *)
  Lemma Sum_single (M : CMon) n s i (v : M) : (s <= i < s + n)%nat ->
    Sum M (seq s n) (fun j => if (j =? i)%nat then v else m0 M) = v.
  Proof.
    revert s. induction n as [|n IH]; intros s H; [lia|].
    cbn [seq]. rewrite Sum_cons. destruct (s =? i)%nat eqn:E.
    - apply Nat.eqb_eq in E. subst i. rewrite Sum_zero; [apply madd_0_r|].
      intros j Hj. apply in_seq in Hj. replace (j =? s)%nat with false; [reflexivity|].
      symmetry; apply Nat.eqb_neq; lia.
    - apply Nat.eqb_neq in E. rewrite madd_0_l. apply IH. lia.
  Qed.

  Section Root.
    Variable N : nat.
    Variable w : C.
    Hypothesis HN : N <> 0%nat.
    Hypothesis Hw : is_root N w.

    Lemma pow_mod m : cpow w m = cpow w (m mod N).
    Proof.
      destruct Hw as (_ & H1 & _).
      rewrite (Nat.div_mod m N) at 1 by exact HN.
      rewrite cpow_add, cpow_mul, H1, cpow_1. ring.
    Qed.
    Lemma conj_w : conj w = cpow w (N - 1).
    Proof.
      destruct Hw as (Hc & H1 & _).
      assert (E : cmul w (cpow w (N - 1)) = c1 K).
      { transitivity (cpow w (S (N - 1))); [reflexivity|]. replace (S (N - 1)) with N by lia. exact H1. }
      transitivity (cmul (conj w) (cmul w (cpow w (N - 1)))).
      - rewrite E. ring.
      - replace (cmul (conj w) (cmul w (cpow w (N - 1)))) with (cmul (cmul w (conj w)) (cpow w (N - 1))) by ring.
        rewrite Hc. ring.
    Qed.
    Lemma term_pow a b : cmul (cpow (conj w) a) (cpow w b) = cpow w ((N - 1) * a + b).
    Proof. rewrite conj_w, <- cpow_mul, cpow_add. reflexivity. Qed.

    Lemma mod_zero_iff a b : (((N - 1) * a + b) mod N = 0 <-> a mod N = b mod N)%nat.
    Proof.
      assert (E : ((((N - 1) * a + b) + a) mod N = b mod N)%nat).
      { replace ((N - 1) * a + b + a)%nat with (b + a * N)%nat by nia. apply Nat.mod_add. exact HN. }
      set (m := ((N - 1) * a + b)%nat) in *. split; intros H.
      - rewrite <- E. rewrite Nat.add_mod by exact HN. rewrite H. cbn [Nat.add]. rewrite Nat.mod_mod by exact HN. reflexivity.
      - rewrite <- H in E.
        rewrite Nat.add_mod in E by exact HN.
        pose proof (Nat.mod_upper_bound m N HN). pose proof (Nat.mod_upper_bound a N HN).
        destruct (le_lt_dec N (m mod N + a mod N)) as [G|G].
        + assert (E2 : ((m mod N + a mod N) mod N = m mod N + a mod N - N)%nat).
          { replace (m mod N + a mod N)%nat with ((m mod N + a mod N - N) + 1 * N)%nat at 1 by lia.
            rewrite Nat.mod_add by exact HN. apply Nat.mod_small. lia. }
          rewrite E2 in E. lia.
        + rewrite Nat.mod_small in E by exact G. lia.
    Qed.

    Lemma kernel_sum a b :
      csum (seq 0 N) (fun k => cmul (cpow (conj w) (a * k)) (cpow w (b * k))) =
      if (a mod N =? b mod N)%nat then cofre (fnat K N) else c0 K.
    Proof.
      set (m := ((N - 1) * a + b)%nat).
      transitivity (csum (seq 0 N) (fun k => cpow w (k * (m mod N)))).
      - apply Sum_ext. intros k _. rewrite term_pow.
        replace ((N - 1) * (a * k) + b * k)%nat with (m * k)%nat by (unfold m; nia).
        rewrite cpow_mul, pow_mod, <- cpow_mul. f_equal. apply Nat.mul_comm.
      - destruct (a mod N =? b mod N)%nat eqn:E.
        + apply Nat.eqb_eq in E. apply mod_zero_iff in E. fold m in E. rewrite E.
          rewrite <- (Sum_ones N 0). apply Sum_ext. intros k _. rewrite Nat.mul_0_r. reflexivity.
        + apply Nat.eqb_neq in E. destruct Hw as (_ & _ & H). apply H.
          pose proof (Nat.mod_upper_bound m N HN).
          assert (m mod N <> 0)%nat by (intros G; apply mod_zero_iff in G; auto). lia.
    Qed.
  End Root.
End Algebra.

(** Circular correlation of two arrays of the same length. *)
Definition circ (K : Fld) (x y : list (Cx K)) (m : nat) : Cx K :=
  let N := length x in
  Sum (cmon K) (seq 0 N) (fun i => cmul (conj (nth i x (c0 K))) (nth ((i + m) mod N) y (c0 K))).

Section Circular.
  Variable K : Fld.
  Notation C := (Cx K).
  Add Field Kf : (flaw K).
  Add Ring Cr : (c_ring K).
  Notation csum := (Sum (cmon K)).
  Variable W : nat -> C.
  Local Ltac cring := match goal with |- @eq _ ?a ?b => change (@eq C a b) end; ring.

  Lemma fft_ok (x : list C) : x <> [] ->
    _fft W x = Ok (map (dft_at (W (length x)) x) (seq 0 (length x))).
  Proof. destruct x; [congruence|reflexivity]. Qed.
  Lemma ifft_ok (x : list C) : x <> [] ->
    _ifft W x = Ok (map (fun k => cscal (finv K (fnat K (length x))) (dft_at (conj (W (length x))) x k))
                        (seq 0 (length x))).
  Proof. destruct x; [congruence|reflexivity]. Qed.

  Lemma mul_arrays_length (x y : list C) : length x = length y -> length (mul_arrays x y) = length x.
  Proof. intros H. unfold mul_arrays. rewrite map_length, combine_length. lia. Qed.
  Lemma nth_mul_arrays (x y : list C) k : length x = length y ->
    nth k (mul_arrays x y) (c0 K) = cmul (nth k x (c0 K)) (nth k y (c0 K)).
  Proof.
    intros H. unfold mul_arrays.
    destruct (le_lt_dec (length x) k) as [G|G].
    - rewrite (nth_overflow x), (nth_overflow (map _ _)) by (rewrite ?map_length, ?combine_length; lia). ring.
    - rewrite (@nth_indep _ _ k (c0 K) (cmul (c0 K) (c0 K))) by (rewrite map_length, combine_length; lia).
      change (cmul (c0 K) (c0 K)) with ((fun p : C * C => cmul (fst p) (snd p)) (c0 K, c0 K)).
      rewrite map_nth, combine_nth by exact H. reflexivity.
  Qed.
  Lemma mul_arrays_comm (x y : list C) : length x = length y -> mul_arrays x y = mul_arrays y x.
  Proof.
    intros H. apply (@list_nth_ext _ _ _ (c0 K)).
    - rewrite !mul_arrays_length; auto.
    - intros k _. rewrite !nth_mul_arrays by auto. ring.
  Qed.

  Theorem correlate_spectra_circ (x y : list C) : length x = length y -> x <> [] ->
    is_root (length x) (W (length x)) ->
    correlate_spectra W x y = Ok (map (circ x y) (seq 0 (length x))).
  Proof.
    intros HL Hx Hw. set (N := length x) in *. set (w := W N) in *.
    assert (HN : N <> 0%nat) by (unfold N; destruct x; [congruence|discriminate]).
    assert (Hy : y <> []) by (intros ->; cbn in HL; lia).
    unfold correlate_spectra. rewrite !fft_ok by assumption. cbn [bind].
    rewrite <- HL. fold N. fold w.
    set (X := map (@conj K) (map (dft_at w x) (seq 0 N))).
    set (Y := map (dft_at w y) (seq 0 N)).
    assert (LX : length X = N) by (unfold X; rewrite !map_length, seq_length; reflexivity).
    assert (LY : length Y = N) by (unfold Y; rewrite !map_length, seq_length; reflexivity).
    assert (LXY : length (mul_arrays X Y) = N) by (rewrite mul_arrays_length; congruence).
    rewrite ifft_ok by (intros E; rewrite E in LXY; cbn in LXY; lia).
    rewrite LXY. fold w. f_equal. apply map_ext_in. intros m Hm. apply in_seq in Hm.
    unfold dft_at at 1. rewrite LXY, cscal_mul, Sum_cmul_l. unfold circ. fold N.
    transitivity (csum (seq 0 N) (fun k => csum (seq 0 N) (fun i => csum (seq 0 N) (fun j =>
      cmul (cmul (cofre (finv K (fnat K N))) (cmul (conj (nth i x (c0 K))) (nth j y (c0 K))))
           (cmul (cpow (conj w) ((i + m) * k)) (cpow w (j * k))))))).
    { apply Sum_ext. intros k Hk. apply in_seq in Hk. rewrite nth_mul_arrays by congruence.
      replace (nth k X (c0 K)) with (conj (dft_at w x k)).
      2:{ unfold X. rewrite map_map, nth_map_seq by lia. reflexivity. }
      replace (nth k Y (c0 K)) with (dft_at w y k).
      2:{ unfold Y. rewrite nth_map_seq by lia. reflexivity. }
      unfold dft_at. rewrite <- HL. fold N. rewrite conj_Sum.
      rewrite Sum_cmul_r. rewrite Sum_cmul_r. rewrite Sum_cmul_l.
      apply Sum_ext. intros i _.
      rewrite !Sum_cmul_l, Sum_cmul_r, Sum_cmul_l. apply Sum_ext. intros j _.
      rewrite conj_mul, conj_pow, Nat.mul_add_distr_r, cpow_add.
      rewrite (Nat.mul_comm k m). cring. }
    rewrite Sum_swap. apply Sum_ext. intros i Hi. apply in_seq in Hi.
    rewrite Sum_swap.
    transitivity (csum (seq 0 N) (fun j => if (j =? (i + m) mod N)%nat
        then cmul (conj (nth i x (c0 K))) (nth ((i + m) mod N) y (c0 K)) else c0 K)).
    { apply Sum_ext. intros j Hj. apply in_seq in Hj. rewrite <- Sum_cmul_l.
      rewrite kernel_sum by assumption. rewrite (Nat.mod_small j) by lia. rewrite (Nat.eqb_sym _ j).
      destruct (j =? (i + m) mod N)%nat eqn:E.
      - apply Nat.eqb_eq in E. rewrite <- E.
        transitivity (cmul (cmul (cofre (finv K (fnat K N))) (cofre (fnat K N)))
          (cmul (conj (nth i x (c0 K))) (nth j y (c0 K)))); [cring|].
        replace (cmul (cofre (finv K (fnat K N))) (cofre (fnat K N))) with (c1 K); [cring|].
        unfold cmul, cofre, c1, cre, cim; cbn [fst snd]. f_equal; field; apply fnat_neq0; exact HN.
      - cring. }
    apply (@Sum_single (cmon K)). pose proof (Nat.mod_upper_bound (i + m) N HN). lia.
  Qed.

  Theorem power_spectrum_circ (x : list C) : x <> [] -> is_root (length x) (W (length x)) ->
    power_spectrum W x = Ok (map (circ x x) (seq 0 (length x))).
  Proof.
    intros Hx Hw. rewrite <- correlate_spectra_circ by auto.
    unfold power_spectrum, correlate_spectra. rewrite !fft_ok by assumption. cbn [bind].
    rewrite mul_arrays_comm; [reflexivity|]. rewrite !map_length. reflexivity.
  Qed.
End Circular.
