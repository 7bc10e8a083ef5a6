(** C105: the energy of frames and of their spectra. *)
From Coq Require Import QArith Qcanon ZifyBool ZifyNat.
From Verif Require Import Base KernelProofs PairSpec Ordered FftModel FftProofs VideoModel MapModel MapProofs Fft2Model Fft2Proofs DlsProofs CountProofs Archimedean Examples Prop_Fft Prop_Map.
Set Implicit Arguments.
Local Open Scope nat_scope.

(** The sum over all entries of [x] times the conjugated entries of [y] *)
Definition inner (K : Fld) (x y : mat (Cx K)) : Cx K :=
  Sum (cmon K) (seq 0 (mh x)) (fun i => Sum (cmon K) (seq 0 (mw x)) (fun j => cmul (mat_at x i j) (conj (mat_at y i j)))).
(** The energy: the sum of the squared absolute values *)
Definition energy (K : Fld) (x : mat (Cx K)) : K :=
  Sum (fmon K) (seq 0 (mh x)) (fun i => Sum (fmon K) (seq 0 (mw x)) (fun j => cnorm2 (mat_at x i j))).

Section Parseval.
  Variable K : Fld.
  Notation C := (Cx K).
  Add Field Kparseval : (flaw K).
  Add Ring Cparseval : (c_ring K).
  Notation csum := (Sum (cmon K)).
  Local Ltac cring := match goal with |- @eq _ ?a ?b => change (@eq C a b) end; ring.
  Variable W : nat -> C.

  Lemma pick n i (f : nat -> C) (c : C) : i < n -> csum (seq 0 n) (fun k => if k =? i then cmul c (f k) else c0 K) = cmul c (f i).
  Proof.
    intros H. rewrite (Sum_ext (cmon K) _ _ (fun k => if k =? i then cmul c (f i) else c0 K)).
    - apply (@Sum_single (cmon K) n 0 i (cmul c (f i))). lia.
    - intros k _. destruct (Nat.eqb_spec k i) as [->|]; reflexivity.
  Qed.

  Lemma cofre_mul (a b : K) : cofre (fmul K a b) = cmul (cofre a) (cofre b).
  Proof. unfold cofre, cmul, cre, cim. cbn [fst snd]. f_equal; ring. Qed.

  (** One dimension *)
  Lemma parseval1 n (w : C) (u v : nat -> C) : n <> 0 -> is_root n w ->
    csum (seq 0 n) (fun k => cmul (csum (seq 0 n) (fun i => cmul (u i) (cpow w (i * k)))) (conj (csum (seq 0 n) (fun i => cmul (v i) (cpow w (i * k)))))) =
    cmul (cofre (fnat K n)) (csum (seq 0 n) (fun i => cmul (u i) (conj (v i)))).
  Proof.
    intros Hn Hw.
    transitivity (csum (seq 0 n) (fun k => csum (seq 0 n) (fun i => csum (seq 0 n) (fun j => cmul (cmul (u i) (conj (v j))) (cmul (cpow (conj w) (j * k)) (cpow w (i * k))))))).
    { apply Sum_ext. intros k _. rewrite conj_Sum, Sum_cmul_r. apply Sum_ext. intros i _. rewrite Sum_cmul_l. apply Sum_ext. intros j _. rewrite conj_mul, conj_pow. cring. }
    rewrite (Sum_swap (cmon K)).
    transitivity (csum (seq 0 n) (fun i => csum (seq 0 n) (fun j => if j =? i then cmul (cmul (cofre (fnat K n)) (u i)) (conj (v j)) else c0 K))).
    { apply Sum_ext. intros i Hi. apply in_seq in Hi. rewrite (Sum_swap (cmon K)). apply Sum_ext. intros j Hj. apply in_seq in Hj.
      rewrite <- Sum_cmul_l, (@kernel_sum K n w Hn Hw j i). rewrite !Nat.mod_small by lia. destruct (j =? i); cring. }
    rewrite Sum_cmul_l. apply Sum_ext. intros i Hi. apply in_seq in Hi. rewrite (@pick n i (fun j => conj (v j)) _ ltac:(lia)). cring.
  Qed.

  (** Two dimensions *)
  Lemma dft2_rows (x : mat C) k l : dft2_at W x k l = csum (seq 0 (mh x)) (fun i => cmul (csum (seq 0 (mw x)) (fun j => cmul (mat_at x i j) (cpow (W (mw x)) (j * l)))) (cpow (W (mh x)) (i * k))).
  Proof.
    unfold dft2_at. apply Sum_ext. intros i _. rewrite Sum_cmul_r. apply Sum_ext. intros j _. cring.
  Qed.
  Lemma parseval2 (x y : mat C) : 1 <= mh x -> 1 <= mw x -> mh y = mh x -> mw y = mw x -> is_root (mh x) (W (mh x)) -> is_root (mw x) (W (mw x)) ->
    inner (Mat (mh x) (mw x) (dft2_at W x)) (Mat (mh y) (mw y) (dft2_at W y)) = cmul (cofre (fnat K (mh x * mw x))) (inner x y).
  Proof.
    intros H1 H2 E1 E2 R1 R2. unfold inner. cbn [mh mw mat_at]. rewrite (Sum_swap (cmon K)).
    transitivity (csum (seq 0 (mw x)) (fun l => cmul (cofre (fnat K (mh x))) (csum (seq 0 (mh x)) (fun i => cmul (csum (seq 0 (mw x)) (fun j => cmul (mat_at x i j) (cpow (W (mw x)) (j * l)))) (conj (csum (seq 0 (mw x)) (fun j => cmul (mat_at y i j) (cpow (W (mw x)) (j * l))))))))).
    { apply Sum_ext. intros l _. rewrite <- (@parseval1 (mh x) (W (mh x))) by (lia || exact R1). apply Sum_ext. intros k _. rewrite !dft2_rows, E1, E2. reflexivity. }
    rewrite <- Sum_cmul_l, (Sum_swap (cmon K)).
    rewrite (Sum_ext (cmon K) (seq 0 (mh x)) _ (fun i => cmul (cofre (fnat K (mw x))) (csum (seq 0 (mw x)) (fun j => cmul (mat_at x i j) (conj (mat_at y i j)))))).
    - rewrite <- Sum_cmul_l. rewrite DlsProofs.fnat_mul'. rewrite cofre_mul. cring.
    - intros i _. apply parseval1; [lia|exact R2].
  Qed.
End Parseval.

Section Energy.
  Variable K : Fld.
  Notation C := (Cx K).
  Add Field Kenergy : (flaw K).
  Add Ring Cenergy : (c_ring K).
  Notation csum := (Sum (cmon K)).
  Notation fsum := (Sum (fmon K)).
  Local Ltac kring := match goal with |- @eq _ ?a ?b => change (@eq (fcar K) a b) end; ring.
  Local Ltac cring := match goal with |- @eq _ ?a ?b => change (@eq C a b) end; ring.
  Lemma cofre_Sum A (l : list A) (f : A -> K) : cofre (fsum l f) = csum l (fun a => cofre (f a)).
  Proof.
    induction l as [|a l IH]; [reflexivity|]. rewrite !Sum_cons, <- IH. unfold cofre. change (madd (cmon K)) with (@cadd K). unfold cadd, cre, cim. cbn [fst snd]. f_equal. kring.
  Qed.
  Lemma cofre_inj (a b : K) : cofre a = cofre b -> a = b.
  Proof. unfold cofre. intros H. congruence. Qed.
  Lemma cofre_norm (z : C) : cofre (cnorm2 z) = cmul z (conj z).
  Proof. destruct z as [a b]. unfold cofre, cnorm2, cmul, conj, cre, cim. cbn [fst snd]. f_equal; kring. Qed.
  Lemma norm_conj (z : C) : cnorm2 (conj z) = cnorm2 z.
  Proof. destruct z as [a b]. unfold cnorm2, conj, cre, cim. cbn [fst snd]. kring. Qed.
  Lemma inner_self (x : mat C) : inner x x = cofre (energy x).
  Proof. unfold inner, energy. rewrite cofre_Sum. apply Sum_ext. intros i _. rewrite cofre_Sum. apply Sum_ext. intros j _. symmetry. apply cofre_norm. Qed.
  Lemma Sum_scale A (l : list A) (c : K) (f : A -> K) : fsum l (fun x => fmul K c (f x)) = fmul K c (fsum l f).
  Proof. induction l as [|x l IH]; [unfold Sum; cbn; kring|]. rewrite !Sum_cons, IH. change (madd (fmon K)) with (fadd K). kring. Qed.
  Lemma cofre_fnat_cancel n (a b : C) : n <> 0 -> cmul (cofre (fnat K n)) a = cmul (cofre (fnat K n)) b -> a = b.
  Proof.
    intros H E. assert (I : cmul (cofre (finv K (fnat K n))) (cofre (fnat K n)) = c1 K).
    { rewrite <- cofre_mul. unfold c1, cofre. f_equal. field. apply fnat_neq0. exact H. }
    transitivity (cmul (cmul (cofre (finv K (fnat K n))) (cofre (fnat K n))) a); [rewrite I; cring|].
    transitivity (cmul (cofre (finv K (fnat K n))) (cmul (cofre (fnat K n)) a)); [cring|]. rewrite E.
    transitivity (cmul (cmul (cofre (finv K (fnat K n))) (cofre (fnat K n))) b); [cring|]. rewrite I. cring.
  Qed.

  (** Sums of values that are the same at l and w - l *)
  Definition weight (w l : nat) : K := if (l =? 0) || (2 * l =? w) then f1 K else fadd K (f1 K) (f1 K).
  Lemma Sum_seq_add a n (e : nat -> K) : fsum (seq a n) e = fsum (seq 0 n) (fun i => e (a + i)).
  Proof. revert a e. induction n as [|n IH]; intros a e; [reflexivity|]. cbn [seq]. rewrite !Sum_cons. rewrite Nat.add_0_r. f_equal. rewrite (IH (S a) e), (IH 1 (fun i => e (a + i))). apply Sum_ext. intros i _. f_equal. lia. Qed.
  Lemma Sum_rev n (e : nat -> K) : fsum (seq 0 n) (fun i => e (n - 1 - i)) = fsum (seq 0 n) e.
  Proof. destruct n as [|n]; [reflexivity|]. rewrite <- (Sum_reverse (fmon K) n e). apply Sum_ext. intros i _. f_equal. lia. Qed.
  Lemma Sum_mirror w (e : nat -> K) : 1 <= w -> (forall l, 1 <= l < w -> e (w - l) = e l) ->
    fsum (seq 0 w) e = fsum (seq 0 (w / 2 + 1)) (fun l => fmul K (weight w l) (e l)).
  Proof.
    intros Hw He. set (m := (w - 1) / 2).
    (* the columns 1 .. m, each of which has a partner *)
    assert (D : fsum (seq (w - m) m) e = fsum (seq 1 m) e).
    { rewrite (Sum_seq_add (w - m)), (Sum_seq_add 1). rewrite <- Sum_rev. apply Sum_ext. intros i Hi. apply in_seq in Hi. rewrite <- (He (1 + i)) by (unfold m in *; lia). f_equal. unfold m in *. lia. }
    assert (T : fsum (seq 1 m) (fun l => fmul K (weight w l) (e l)) = fadd K (fsum (seq 1 m) e) (fsum (seq 1 m) e)).
    { transitivity (fsum (seq 1 m) (fun l => fadd K (e l) (e l))); [|exact (Sum_madd (fmon K) (seq 1 m) e e)]. apply Sum_ext. intros l Hl. apply in_seq in Hl. unfold weight. replace ((l =? 0) || (2 * l =? w)) with false by (unfold m in *; lia). change (madd (fmon K)) with (fadd K). kring. }
    destruct (Nat.Even_or_Odd w) as [[k Hk]|[k Hk]].
    - assert (Em : m = k - 1) by (unfold m; lia). assert (w / 2 = k) by lia.
      replace (seq 0 w) with ([0] ++ seq 1 m ++ [k] ++ seq (w - m) m).
      2:{ replace w with (1 + (m + (1 + m))) at 2 by lia. rewrite !seq_app. replace (w - m) with (0 + 1 + m + 1) by lia. replace k with (0 + 1 + m) by lia. reflexivity. }
      replace (seq 0 (w / 2 + 1)) with ([0] ++ seq 1 m ++ [k]).
      2:{ replace (w / 2 + 1) with (1 + (m + 1)) by lia. rewrite !seq_app. replace k with (0 + 1 + m) by lia. reflexivity. }
      rewrite !(Sum_app (fmon K)), D, T, !Sum_cons, !Sum_nil. unfold weight. replace (2 * k =? w) with true by lia. rewrite Bool.orb_true_r. cbn [Nat.eqb orb].
      change (madd (fmon K)) with (fadd K). change (m0 (fmon K)) with (f0 K). kring.
    - assert (Em : m = k) by (unfold m; lia). assert (w / 2 = k) by lia.
      replace (seq 0 w) with ([0] ++ seq 1 m ++ seq (w - m) m).
      2:{ replace w with (1 + (m + m)) at 2 by lia. rewrite !seq_app. replace (w - m) with (0 + 1 + m) by lia. reflexivity. }
      replace (seq 0 (w / 2 + 1)) with ([0] ++ seq 1 m).
      2:{ replace (w / 2 + 1) with (1 + m) by lia. reflexivity. }
      rewrite !(Sum_app (fmon K)), D, T, !Sum_cons, !Sum_nil. unfold weight. cbn [Nat.eqb orb].
      change (madd (fmon K)) with (fadd K). change (m0 (fmon K)) with (f0 K). kring.
  Qed.
  Lemma cmul_zero (b : C) : cmul (c0 K) b = c0 K.
  Proof. cring. Qed.
  Lemma norm_cofre (a : K) : cnorm2 (cofre a) = fmul K a a.
  Proof. unfold cnorm2, cofre, cre, cim. cbn [fst snd]. kring. Qed.
  Lemma csum_sub A (l : list A) (f g : A -> C) : csum l (fun x => csub (f x) (g x)) = csub (csum l f) (csum l g).
  Proof. induction l as [|x l IH]; [unfold Sum; cbn; cring|]. rewrite !Sum_cons, IH. change (madd (cmon K)) with (@cadd K). cring. Qed.
  Lemma dft2_sub (W : nat -> C) (x y : mat C) k l : mh y = mh x -> mw y = mw x ->
    csub (dft2_at W x k l) (dft2_at W y k l) = dft2_at W (Mat (mh x) (mw x) (fun i j => csub (mat_at x i j) (mat_at y i j))) k l.
  Proof.
    intros E1 E2. unfold dft2_at. cbn [mh mw mat_at]. rewrite E1, E2, <- csum_sub. apply Sum_ext. intros i _. rewrite <- csum_sub. apply Sum_ext. intros j _. cring.
  Qed.
  Lemma inner_delta (x : mat C) i j : i < mh x -> j < mw x -> inner x (Mat (mh x) (mw x) (fun a b => if (a =? i) && (b =? j) then c1 K else c0 K)) = mat_at x i j.
  Proof.
    intros Hi Hj. unfold inner. cbn [mat_at].
    transitivity (csum (seq 0 (mh x)) (fun a => if a =? i then mat_at x i j else c0 K)).
    - apply Sum_ext. intros a _. destruct (Nat.eqb_spec a i) as [->|]; cbn [andb].
      + transitivity (csum (seq 0 (mw x)) (fun b => if b =? j then mat_at x i j else c0 K)).
        * apply Sum_ext. intros b _. destruct (Nat.eqb_spec b j) as [->|]; [rewrite conj_1; cring|rewrite conj_0; cring].
        * apply (@Sum_single (cmon K) (mw x) 0 j (mat_at x i j)). lia.
      + apply (Sum_zero (cmon K)). intros b _. rewrite conj_0. change (m0 (cmon K)) with (c0 K). cring.
    - apply (@Sum_single (cmon K) (mh x) 0 i (mat_at x i j)). lia.
  Qed.
  Lemma inner_delta' (x : mat C) i j h w : h = mh x -> w = mw x -> i < h -> j < w -> inner x (Mat h w (fun a b => if (a =? i) && (b =? j) then c1 K else c0 K)) = mat_at x i j.
  Proof. intros -> -> Hi Hj. apply inner_delta; assumption. Qed.
  (** The columns l and w - l of the spectrum of a real frame have the same energy. *)
  Lemma column_mirror (W : nat -> C) (x : mat K) l : 1 <= mh x -> 1 <= l < mw x -> is_root (mh x) (W (mh x)) -> is_root (mw x) (W (mw x)) ->
    fsum (seq 0 (mh x)) (fun i => cnorm2 (dft2_at W (Mat (mh x) (mw x) (fun a b => cofre (mat_at x a b))) i (mw x - l))) =
    fsum (seq 0 (mh x)) (fun i => cnorm2 (dft2_at W (Mat (mh x) (mw x) (fun a b => cofre (mat_at x a b))) i l)).
  Proof.
    intros H1 Hl R1 R2. set (w := W (mw x)) in *.
    set (A := fun m i => csum (seq 0 (mw x)) (fun j => cmul (cofre (mat_at x i j)) (cpow w (j * m)))).
    assert (E : forall m, cofre (fsum (seq 0 (mh x)) (fun k => cnorm2 (dft2_at W (Mat (mh x) (mw x) (fun a b => cofre (mat_at x a b))) k m))) = cmul (cofre (fnat K (mh x))) (csum (seq 0 (mh x)) (fun i => cofre (cnorm2 (A m i))))).
    { intros m. rewrite cofre_Sum. rewrite (Sum_ext (cmon K) (seq 0 (mh x)) (fun i => cofre (cnorm2 (A m i))) (fun i => cmul (A m i) (conj (A m i)))) by (intros i _; apply cofre_norm).
      rewrite <- (@parseval1 K W (mh x) (W (mh x)) (A m) (A m)) by (lia || exact R1). apply Sum_ext. intros k _. rewrite cofre_norm, dft2_rows. reflexivity. }
    apply cofre_inj. rewrite !E. f_equal. apply Sum_ext. intros i _. f_equal. rewrite <- norm_conj. f_equal. unfold A. rewrite conj_Sum. apply Sum_ext. intros j _. rewrite conj_mul, conj_cofre. f_equal.
    pose proof (@pow_conj K W (mw x) w j (Z.of_nat l) ltac:(lia) R2) as Q. unfold freq in Q. rewrite (Z.mod_small (Z.of_nat l)) in Q by lia.
    replace ((- Z.of_nat l) mod Z.of_nat (mw x))%Z with (Z.of_nat (mw x - l)) in Q.
    - rewrite !Nat2Z.id in Q. rewrite Q, conj_conj. reflexivity.
    - rewrite <- (Z_mod_plus_full (- Z.of_nat l) 1 (Z.of_nat (mw x))). rewrite Z.mod_small by lia. lia.
  Qed.
End Energy.

(** Products of the spectra of two frames are products of the frames, times the number of pixels. *)
Theorem C105_products (K : Fld) (W : nat -> Cx K) (x y : mat (Cx K)) : 1 <= mh x -> 1 <= mw x -> mh y = mh x -> mw y = mw x -> is_root (mh x) (W (mh x)) -> is_root (mw x) (W (mw x)) ->
  exists fx fy, _fft2 W x = Ok fx /\ _fft2 W y = Ok fy /\ inner fx fy = cmul (cofre (fnat K (mh x * mw x))) (inner x y).
Proof.
  intros H1 H2 E1 E2 R1 R2. unfold _fft2. rewrite E1, E2. replace ((mh x =? 0) || (mw x =? 0)) with false by lia.
  eexists _, _. split; [reflexivity|]. split; [reflexivity|]. pose proof (@parseval2 K W x y H1 H2 E1 E2 R1 R2) as P. rewrite E1, E2 in P. exact P.
Qed.
Print Assumptions C105_products.

(** The energy of the spectrum is the energy of the frame times the number of pixels. *)
Theorem C105_energy (K : Fld) (W : nat -> Cx K) (x fx : mat (Cx K)) : is_root (mh x) (W (mh x)) -> is_root (mw x) (W (mw x)) ->
  _fft2 W x = Ok fx -> energy fx = fmul K (fnat K (mh x * mw x)) (energy x).
Proof.
  intros R1 R2 E. assert (H : 1 <= mh x /\ 1 <= mw x) by (unfold _fft2 in E; destruct ((mh x =? 0) || (mw x =? 0)) eqn:Z; [discriminate|lia]). destruct H as [H1 H2].
  destruct (@C105_products K W x x H1 H2 eq_refl eq_refl R1 R2) as (f & g & F & G & P). assert (f = fx) as -> by congruence. assert (g = fx) as -> by congruence.
  apply cofre_inj. rewrite <- inner_self, P, inner_self, cofre_mul. reflexivity.
Qed.
Print Assumptions C105_energy.

(** The sum over all wave vectors of the squared differences of two spectra is the sum of the squared differences of the frames, times the number of pixels. *)
Theorem C105_differences (K : Fld) (W : nat -> Cx K) (x y fx fy : mat (Cx K)) : mh y = mh x -> mw y = mw x -> is_root (mh x) (W (mh x)) -> is_root (mw x) (W (mw x)) ->
  _fft2 W x = Ok fx -> _fft2 W y = Ok fy ->
  energy (Mat (mh fx) (mw fx) (fun i j => csub (mat_at fx i j) (mat_at fy i j))) =
  fmul K (fnat K (mh x * mw x)) (energy (Mat (mh x) (mw x) (fun i j => csub (mat_at x i j) (mat_at y i j)))).
Proof.
  intros E1 E2 R1 R2 Ex Ey. set (d := Mat (mh x) (mw x) (fun i j => csub (mat_at x i j) (mat_at y i j))).
  assert (H : 1 <= mh x /\ 1 <= mw x) by (unfold _fft2 in Ex; destruct ((mh x =? 0) || (mw x =? 0)) eqn:Z; [discriminate|lia]). destruct H as [H1 H2].
  assert (Ed : exists fd, _fft2 W d = Ok fd) by (unfold _fft2; cbn [mh mw d]; replace ((mh x =? 0) || (mw x =? 0)) with false by lia; eexists; reflexivity).
  destruct Ed as [fd Ed]. transitivity (energy fd); [|exact (@C105_energy K W d fd R1 R2 Ed)].
  unfold _fft2 in Ex, Ey, Ed. cbn [mh mw d] in Ed. rewrite E1, E2 in Ey. replace ((mh x =? 0) || (mw x =? 0)) with false in Ex, Ey, Ed by lia.
  injection Ex as <-. injection Ey as <-. injection Ed as <-. unfold energy. cbn [mh mw mat_at]. apply Sum_ext. intros i _. apply Sum_ext. intros j _. f_equal.
  apply dft2_sub; assumption.
Qed.
Print Assumptions C105_differences.

(** Real frames: the half of the spectrum that is stored has the same energy when the columns between the first one and the one of the highest frequency are counted twice. *)
Theorem C105_half (K : Fld) (W : nat -> Cx K) (x : mat K) fx : is_root (mh x) (W (mh x)) -> is_root (mw x) (W (mw x)) ->
  _rfft2 W x = Ok fx ->
  Sum (fmon K) (seq 0 (mw fx)) (fun j => fmul K (if (j =? 0) || (2 * j =? mw x) then f1 K else fadd K (f1 K) (f1 K)) (Sum (fmon K) (seq 0 (mh fx)) (fun i => cnorm2 (mat_at fx i j)))) =
  fmul K (fnat K (mh x * mw x)) (Sum (fmon K) (seq 0 (mh x)) (fun i => Sum (fmon K) (seq 0 (mw x)) (fun j => fmul K (mat_at x i j) (mat_at x i j)))).
Proof.
  intros R1 R2 E. set (y := Mat (mh x) (mw x) (fun i j => cofre (mat_at x i j))).
  assert (H : 1 <= mh x /\ 1 <= mw x) by (unfold _rfft2 in E; destruct ((mh x =? 0) || (mw x =? 0)) eqn:Z; [discriminate|lia]). destruct H as [H1 H2].
  unfold _rfft2 in E. replace ((mh x =? 0) || (mw x =? 0)) with false in E by lia. injection E as <-. fold y. cbn [mh mw mat_at].
  assert (Ey : _fft2 W y = Ok (Mat (mh x) (mw x) (dft2_at W y))) by (unfold _fft2; cbn [mh mw y]; replace ((mh x =? 0) || (mw x =? 0)) with false by lia; reflexivity).
  pose proof (@C105_energy K W y _ R1 R2 Ey) as P. unfold energy in P. cbn [mh mw mat_at y] in P. fold y in P.
  transitivity (Sum (fmon K) (seq 0 (mw x)) (fun j => Sum (fmon K) (seq 0 (mh x)) (fun i => cnorm2 (dft2_at W y i j)))).
  - symmetry. apply (@Sum_mirror K (mw x)); [exact H2|]. intros l Hl. apply column_mirror; assumption.
  - rewrite (Sum_swap (fmon K)), P. f_equal. apply Sum_ext. intros i _. apply Sum_ext. intros j _. apply norm_cofre.
Qed.
Print Assumptions C105_half.

(** Nothing is lost: frames with the same spectrum are the same, and so are real frames with the same stored half. *)
Theorem C105_faithful (K : Fld) (W : nat -> Cx K) (x y fx fy : mat (Cx K)) : is_root (mh x) (W (mh x)) -> is_root (mw x) (W (mw x)) ->
  _fft2 W x = Ok fx -> _fft2 W y = Ok fy -> same fx fy -> same x y.
Proof.
  intros R1 R2 Ex Ey (S1 & S2 & S3).
  unfold _fft2 in Ex, Ey. destruct ((mh x =? 0) || (mw x =? 0)) eqn:Z; [discriminate|]. destruct ((mh y =? 0) || (mw y =? 0)) eqn:Z'; [discriminate|]. injection Ex as <-. injection Ey as <-. cbn [mh mw mat_at] in *.
  split; [exact S1|]. split; [exact S2|]. intros i j Hi Hj.
  set (d := Mat (mh x) (mw x) (fun a b => if (a =? i) && (b =? j) then c1 K else c0 K)).
  apply (@cofre_fnat_cancel K (mh x * mw x)); [nia|].
  rewrite <- (@inner_delta K x i j Hi Hj), <- (@inner_delta' K y i j (mh x) (mw x)) by lia.
  pose proof (@parseval2 K W x d ltac:(lia) ltac:(lia) eq_refl eq_refl R1 R2) as P.
  assert (R1' : is_root (mh y) (W (mh y))) by (rewrite <- S1; exact R1). assert (R2' : is_root (mw y) (W (mw y))) by (rewrite <- S2; exact R2).
  pose proof (@parseval2 K W y d ltac:(lia) ltac:(lia) S1 S2 R1' R2') as Q. rewrite <- S1, <- S2 in Q. cbn [mh mw d] in P, Q. fold d in P, Q.
  unfold d in P, Q. rewrite <- P, <- Q. unfold inner. cbn [mh mw mat_at]. apply Sum_ext. intros a Ha. apply in_seq in Ha. apply Sum_ext. intros b Hb. apply in_seq in Hb. rewrite S3 by lia. reflexivity.
Qed.
Print Assumptions C105_faithful.
Theorem C105_faithful_half (K : Fld) (W : nat -> Cx K) (x y : mat K) fx fy : is_root (mh x) (W (mh x)) -> is_root (mw x) (W (mw x)) ->
  mw x = mw y -> _rfft2 W x = Ok fx -> _rfft2 W y = Ok fy -> same fx fy -> same x y.
Proof.
  intros R1 R2 EW Ex Ey (S1 & S2 & S3). set (cx := Mat (mh x) (mw x) (fun i j => cofre (mat_at x i j))). set (cy := Mat (mh y) (mw y) (fun i j => cofre (mat_at y i j))).
  unfold _rfft2 in Ex, Ey. destruct ((mh x =? 0) || (mw x =? 0)) eqn:Z; [discriminate|]. destruct ((mh y =? 0) || (mw y =? 0)) eqn:Z'; [discriminate|]. injection Ex as <-. injection Ey as <-. fold cx in S1, S2, S3. fold cy in S1, S2, S3. cbn [mh mw mat_at] in S1, S2, S3. change (fst (Nat.divmod (mw x) 1 0 1)) with (mw x / 2) in S2, S3.
  assert (R1' : is_root (mh y) (W (mh y))) by (rewrite <- S1; exact R1). assert (R2' : is_root (mw y) (W (mw y))) by (rewrite <- EW; exact R2).
  pose proof (@dft2_hermitian K W cx ltac:(cbn [mh cx]; lia) ltac:(cbn [mw cx]; lia) R1 R2 (fun i j => conj_cofre K _)) as HX.
  pose proof (@dft2_hermitian K W cy ltac:(cbn [mh cy]; lia) ltac:(cbn [mw cy]; lia) R1' R2' (fun i j => conj_cofre K _)) as HY.
  set (Fx := Mat (mh cx) (mw cx) (dft2_at W cx)) in *. set (Fy := Mat (mh cy) (mw cy) (dft2_at W cy)) in *.
  set (half := Mat (mh x) (mw x / 2 + 1) (dft2_at W cx)).
  destruct (@complete_half _ (fun _ _ => c0 K) conj Fx half) as (full & E & V); [cbn [mh Fx cx]; lia|cbn [mw Fx cx]; lia|exact HX|reflexivity|reflexivity|reflexivity|].
  destruct (@complete_half _ (fun _ _ => c0 K) conj Fy half) as (full' & E' & V'); [cbn [mh Fy cy]; lia|cbn [mw Fy cy]; lia|exact HY|exact S1|cbn [mw Fy cy half]; lia| |].
  { intros i j Hi Hj. cbn [mh mw half] in Hi, Hj. cbn [mat_at half Fy]. apply S3; lia. }
  cbn [mh mw Fx Fy cx cy] in E, E'. rewrite <- S1, <- EW in E'. assert (full' = full) as -> by congruence.
  assert (SF : same Fx Fy).
  { destruct V as (A1 & A2 & A3), V' as (B1 & B2 & B3). split; [congruence|]. split; [congruence|]. intros i j Hi Hj. rewrite <- A3 by congruence. apply B3; congruence. }
  assert (SC : same cx cy).
  { apply (@C105_faithful K W cx cy Fx Fy R1 R2); [| |exact SF]; unfold _fft2; [replace ((mh cx =? 0) || (mw cx =? 0)) with false by (cbn [mh mw cx]; lia)|replace ((mh cy =? 0) || (mw cy =? 0)) with false by (cbn [mh mw cy]; lia)]; reflexivity. }
  destruct SC as (C1 & C2 & C3). split; [exact C1|]. split; [exact C2|]. intros i j Hi Hj. apply cofre_inj. exact (C3 i j Hi Hj).
Qed.
Print Assumptions C105_faithful_half.
(** The stored half does not tell the width of the frame: black frames of 2 and of 3 columns have the same one. *)
Theorem C105_width_refuted (W : nat -> Cx QcF) : exists (x y : mat QcF) fx fy, _rfft2 W x = Ok fx /\ _rfft2 W y = Ok fy /\ same fx fy /\ ~ same x y.
Proof.
  exists (Mat 1 2 (fun _ _ => f0 QcF)), (Mat 1 3 (fun _ _ => f0 QcF)). eexists _, _. split; [reflexivity|]. split; [reflexivity|]. split.
  - split; [reflexivity|]. split; [reflexivity|]. intros i j _ _. cbn [mat_at]. transitivity (c0 QcF); [|symmetry]; unfold dft2_at; apply (Sum_zero (cmon QcF)); intros a _; apply (Sum_zero (cmon QcF)); intros b _; cbn [mat_at]; change (cofre (f0 QcF)) with (c0 QcF); apply cmul_zero.
  - intros (_ & X & _). discriminate X.
Qed.
Print Assumptions C105_width_refuted.

(** A frame of 2 rows and 4 columns with the energy 35: its spectrum has the energy 8 * 35, as the weighted half of it. *)
Example C105_example :
  let x := Mat 2 4 (fun i j => cofre (mat_at fr24 i j)) in
  is_root 2 (Wq 2) /\ is_root 4 (Wq 4) /\ energy x = q 35 /\
  (exists fx, _fft2 Wq x = Ok fx /\ energy fx = q 280) /\
  (exists fx, _rfft2 Wq fr24 = Ok fx /\ mw fx = 3 /\
    map (fun j => this (Sum (fmon QcF) (seq 0 (mh fx)) (fun i => cnorm2 (mat_at fx i j)))) [0; 1; 2] = [218 # 1; 18 # 1; 26 # 1]%Q) /\
  (218 + 2 * 18 + 26 = 280)%Z.
Proof.
  cbv zeta. split; [exact Wq2|]. split; [exact Wq4|]. split; [apply Qc_is_canon; vm_compute; reflexivity|]. split.
  - eexists. split; [reflexivity|]. apply Qc_is_canon; vm_compute; reflexivity.
  - split; [|reflexivity]. eexists. split; [reflexivity|]. split; [reflexivity|]. vm_compute. reflexivity.
Qed.
