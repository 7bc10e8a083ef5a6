(** The convolution theorem for two-dimensional transforms. *)
From Verif Require Import Base PairSpec FftModel FftProofs VideoModel MapModel MapProofs Fft2Model Fft2Proofs DlsModel.
From Coq Require Import Lia ZifyBool ZifyNat Setoid.
Set Implicit Arguments.

Section Conv.
  Variable K : Fld.
  Notation C := (Cx K).
  Add Field Kdls : (flaw K).
  Add Ring Cdls : (c_ring K).
  Notation csum := (Sum (cmon K)).
  Local Ltac cring := match goal with |- @eq _ ?a ?b => change (@eq C a b) end; ring.

  Lemma csum_madd A (l : list A) f g : csum l (fun x => cadd (f x) (g x)) = cadd (csum l f) (csum l g).
  Proof. exact (@Sum_madd (cmon K) A l f g). Qed.
  (** one axis *)
  Section Axis.
    Variable N : nat.
    Variable w : C.
    Hypothesis HN : N <> 0.
    Hypothesis Hw : is_root N w.

    Lemma pick (g : nat -> C) i y : csum (seq 0 N) (fun p => if ((i + p) mod N =? y mod N) then g p else c0 K) = g ((y + (N - i mod N)) mod N).
    Proof.
      assert (B : (y + (N - i mod N)) mod N < N) by (apply Nat.mod_upper_bound; exact HN).
      rewrite <- (@Sum_single (cmon K) N 0 ((y + (N - i mod N)) mod N) (g ((y + (N - i mod N)) mod N))) by lia.
      apply Sum_ext. intros p Hp. apply in_seq in Hp.
      assert (E : ((i + p) mod N =? y mod N) = (p =? (y + (N - i mod N)) mod N)).
      { apply eq_true_iff_eq. rewrite !Nat.eqb_eq. pose proof (Nat.mod_upper_bound i N HN) as Hi.
        assert (M : forall a b, a mod N = b mod N <-> exists c d, a + c * N = b + d * N).
        { intros a b. split.
          - intros H. exists (b / N), (a / N). pose proof (Nat.div_mod a N HN). pose proof (Nat.div_mod b N HN). nia.
          - intros (c & d & H). rewrite <- (Nat.mod_add a c N HN), <- (Nat.mod_add b d N HN), H. reflexivity. }
        pose proof (Nat.div_mod i N HN) as Di. split.
        - intros H. apply M in H. destruct H as (c & d & H). symmetry. rewrite <- (Nat.mod_small p N) by lia. apply M.
          exists d, (i / N + c + 1). nia.
        - intros H. assert (H' : p mod N = (y + (N - i mod N)) mod N) by (rewrite Nat.mod_small by lia; exact H). apply M in H'. destruct H' as (c & d & H'). apply M. exists c, (i / N + 1 + d). nia. }
      rewrite E. destruct (Nat.eqb_spec p ((y + (N - i mod N)) mod N)) as [->|]; reflexivity.
    Qed.
    Lemma conv_axis (f g : nat -> C) y :
      csum (seq 0 N) (fun k => cmul (cmul (csum (seq 0 N) (fun i => cmul (f i) (cpow w (i * k)))) (csum (seq 0 N) (fun p => cmul (g p) (cpow w (p * k))))) (cpow (conj w) (y * k))) =
      cscal (fnat K N) (csum (seq 0 N) (fun i => cmul (f i) (g ((y + (N - i)) mod N)))).
    Proof.
      transitivity (csum (seq 0 N) (fun i => csum (seq 0 N) (fun p => cmul (cmul (f i) (g p)) (csum (seq 0 N) (fun k => cmul (cpow (conj w) (y * k)) (cpow w ((i + p) * k))))))).
      - transitivity (csum (seq 0 N) (fun k => csum (seq 0 N) (fun i => csum (seq 0 N) (fun p => cmul (cmul (f i) (g p)) (cmul (cpow (conj w) (y * k)) (cpow w ((i + p) * k))))))).
        + apply Sum_ext. intros k _. rewrite Sum_cmul_r. rewrite Sum_cmul_r. apply Sum_ext. intros i _. rewrite Sum_cmul_l, Sum_cmul_r. apply Sum_ext. intros p _.
          replace ((i + p) * k) with (i * k + p * k) by lia. rewrite cpow_add. cring.
        + rewrite (Sum_swap (cmon K)). apply Sum_ext. intros i _. rewrite (Sum_swap (cmon K)). apply Sum_ext. intros p _. symmetry. apply Sum_cmul_l.
      - rewrite cscal_mul, Sum_cmul_l. apply Sum_ext. intros i Hi. apply in_seq in Hi.
        transitivity (csum (seq 0 N) (fun p => if ((i + p) mod N =? y mod N) then cmul (cofre (fnat K N)) (cmul (f i) (g p)) else c0 K)).
        + apply Sum_ext. intros p _. rewrite (@kernel_sum K N w HN Hw). rewrite Nat.eqb_sym. destruct ((i + p) mod N =? y mod N); cring.
        + rewrite (pick (fun p => cmul (cofre (fnat K N)) (cmul (f i) (g p)))). rewrite (Nat.mod_small i N) by lia. reflexivity.
    Qed.
    (** the transform of the inverse transform *)
    Lemma inverse_axis (f : nat -> C) k : k < N ->
      csum (seq 0 N) (fun i => cmul (csum (seq 0 N) (fun l => cmul (f l) (cpow (conj w) (i * l)))) (cpow w (i * k))) = cscal (fnat K N) (f k).
    Proof.
      intros Hk. transitivity (csum (seq 0 N) (fun l => cmul (f l) (csum (seq 0 N) (fun i => cmul (cpow (conj w) (l * i)) (cpow w (k * i)))))).
      - transitivity (csum (seq 0 N) (fun i => csum (seq 0 N) (fun l => cmul (f l) (cmul (cpow (conj w) (l * i)) (cpow w (k * i)))))).
        + apply Sum_ext. intros i _. rewrite Sum_cmul_r. apply Sum_ext. intros l _. rewrite (Nat.mul_comm l i), (Nat.mul_comm k i). cring.
        + rewrite (Sum_swap (cmon K)). apply Sum_ext. intros l _. symmetry. apply Sum_cmul_l.
      - rewrite <- (@Sum_single (cmon K) N 0 k (cscal (fnat K N) (f k))) by lia. apply Sum_ext. intros l Hl. apply in_seq in Hl.
        rewrite (@kernel_sum K N w HN Hw). rewrite !Nat.mod_small by lia. destruct (Nat.eqb_spec l k) as [->|]; [rewrite cscal_mul; cring|change (m0 (cmon K)) with (c0 K); cring].
    Qed.
  End Axis.

  Variable W : nat -> C.
  Lemma dft2_rows (x : mat C) k l : dft2_at W x k l =
    csum (seq 0 (mh x)) (fun i => cmul (csum (seq 0 (mw x)) (fun j => cmul (mat_at x i j) (cpow (W (mw x)) (j * l)))) (cpow (W (mh x)) (i * k))).
  Proof. unfold dft2_at. apply Sum_ext. intros i _. rewrite Sum_cmul_r. apply Sum_ext. intros j _. cring. Qed.
  Lemma cscal_cscal (a b : K) (z : C) : cscal a (cscal b z) = cscal (fmul K a b) z.
  Proof. destruct z. unfold cscal, cre, cim. cbn [fst snd]. f_equal; ring. Qed.
  Lemma cscal_one (z : C) : cscal (f1 K) z = z.
  Proof. destruct z. unfold cscal, cre, cim. cbn [fst snd]. f_equal; ring. Qed.
  Lemma csum_cscal A (l : list A) a f : csum l (fun x => cscal a (f x)) = cscal a (csum l f).
  Proof. rewrite cscal_mul, Sum_cmul_l. apply Sum_ext. intros x _. apply cscal_mul. Qed.
  Lemma fnat_add' a b : fnat K (a + b) = fadd K (fnat K a) (fnat K b).
  Proof. induction a as [|a IH]; [change (fnat K 0) with (f0 K); cbn [Nat.add]; ring|]. cbn [Nat.add]. rewrite !fnat_S, IH. ring. Qed.
  Lemma fnat_mul' a b : fnat K (a * b) = fmul K (fnat K a) (fnat K b).
  Proof. induction a as [|a IH]; [change (fnat K 0) with (f0 K); cbn [Nat.mul]; change (fnat K 0) with (f0 K); ring|]. cbn [Nat.mul]. rewrite fnat_add', IH, fnat_S. ring. Qed.
  Lemma scale_back h w (z : C) : h <> 0 -> w <> 0 -> cscal (finv K (fnat K (h * w))) (cscal (fnat K w) (cscal (fnat K h) z)) = z.
  Proof.
    intros Hh Hw. rewrite !cscal_cscal. rewrite fnat_mul'. pose proof (fnat_neq0 K Hh) as A. pose proof (fnat_neq0 K Hw) as B.
    transitivity (cscal (f1 K) z); [|apply cscal_one]. f_equal. field. split; assumption.
  Qed.

  (** The inverse transform of a product of transforms is the cyclic convolution. *)
  Lemma conv2 (x y : mat C) r c : mh x <> 0 -> mw x <> 0 -> mh y = mh x -> mw y = mw x ->
    is_root (mh x) (W (mh x)) -> is_root (mw x) (W (mw x)) ->
    idft2_at W (Mat (mh x) (mw x) (fun k l => cmul (dft2_at W x k l) (dft2_at W y k l))) r c =
    csum (seq 0 (mh x)) (fun i => csum (seq 0 (mw x)) (fun j => cmul (mat_at x i j) (mat_at y ((r + (mh x - i)) mod mh x) ((c + (mw x - j)) mod mw x)))).
  Proof.
    intros Hh Hw Eh Ew Rh Rw. unfold idft2_at. cbn [mh mw mat_at].
    set (h := mh x) in *. set (w := mw x) in *. set (wh := W h) in *. set (ww := W w) in *.
    set (F := fun l i => csum (seq 0 w) (fun j => cmul (mat_at x i j) (cpow ww (j * l)))).
    set (G := fun l i => csum (seq 0 w) (fun j => cmul (mat_at y i j) (cpow ww (j * l)))).
    transitivity (cscal (finv K (fnat K (h * w))) (csum (seq 0 w) (fun l => cmul (csum (seq 0 h) (fun k =>
      cmul (cmul (csum (seq 0 h) (fun i => cmul (F l i) (cpow wh (i * k)))) (csum (seq 0 h) (fun p => cmul (G l p) (cpow wh (p * k))))) (cpow (conj wh) (r * k)))) (cpow (conj ww) (c * l))))).
    { f_equal. rewrite (Sum_swap (cmon K)). apply Sum_ext. intros l _. rewrite Sum_cmul_r. apply Sum_ext. intros k _.
      rewrite !dft2_rows. rewrite Eh, Ew. fold h w. fold wh ww. unfold F, G. cring. }
    rewrite <- (scale_back (csum (seq 0 h) _) Hh Hw). f_equal.
    transitivity (csum (seq 0 w) (fun l => cscal (fnat K h) (csum (seq 0 h) (fun i => cmul (cmul (F l i) (G l ((r + (h - i)) mod h))) (cpow (conj ww) (c * l)))))).
    { apply Sum_ext. intros l _. rewrite (@conv_axis h wh Hh Rh (F l) (G l) r). rewrite !cscal_mul. rewrite <- Sum_cmul_r. cring. }
    rewrite csum_cscal. rewrite !cscal_cscal. rewrite (Rmul_comm (F_R (flaw K))), <- cscal_cscal. f_equal.
    rewrite (Sum_swap (cmon K)). rewrite <- csum_cscal. apply Sum_ext. intros i _.
    exact (@conv_axis w ww Hw Rw (fun j => mat_at x i j) (fun q => mat_at y ((r + (h - i)) mod h) q) c).
  Qed.
  (** The transform of an inverse transform *)
  Lemma inverse2 (x : mat C) k l : k < mh x -> l < mw x -> is_root (mh x) (W (mh x)) -> is_root (mw x) (W (mw x)) ->
    dft2_at W (Mat (mh x) (mw x) (idft2_at W x)) k l = mat_at x k l.
  Proof.
    intros Hk Hl Rh Rw. assert (Hh : mh x <> 0) by lia. assert (Hw : mw x <> 0) by lia. unfold dft2_at. cbn [mh mw mat_at]. unfold idft2_at.
    set (h := mh x) in *. set (w := mw x) in *. set (wh := W h) in *. set (ww := W w) in *.
    set (F := fun j a => csum (seq 0 w) (fun b => cmul (mat_at x a b) (cpow (conj ww) (j * b)))).
    transitivity (cscal (finv K (fnat K (h * w))) (csum (seq 0 w) (fun j => cmul (csum (seq 0 h) (fun i => cmul (csum (seq 0 h) (fun a => cmul (F j a) (cpow (conj wh) (i * a)))) (cpow wh (i * k)))) (cpow ww (j * l))))).
    { rewrite (Sum_swap (cmon K)). rewrite <- csum_cscal. apply Sum_ext. intros j _. rewrite Sum_cmul_r, <- csum_cscal. apply Sum_ext. intros i _.
      rewrite !cscal_mul. unfold F. rewrite <- (Rmul_assoc (c_ring K)). f_equal. rewrite <- (Rmul_assoc (c_ring K)). f_equal. 
      apply Sum_ext. intros a _. rewrite Sum_cmul_r. apply Sum_ext. intros b _. cring. }
    transitivity (cscal (finv K (fnat K (h * w))) (csum (seq 0 w) (fun j => cscal (fnat K h) (cmul (F j k) (cpow ww (j * l)))))).
    { f_equal. apply Sum_ext. intros j _. rewrite (@inverse_axis h wh Hh Rh (F j) k Hk). rewrite !cscal_mul. cring. }
    rewrite csum_cscal. unfold F. rewrite (@inverse_axis w ww Hw Rw (fun b => mat_at x k b) l Hl).
    rewrite !cscal_cscal. pose proof (scale_back (mat_at x k l) Hh Hw) as E. rewrite !cscal_cscal in E. rewrite <- E at 2. f_equal. ring.
  Qed.
End Conv.
