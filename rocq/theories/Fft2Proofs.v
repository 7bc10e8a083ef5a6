(** The transform of a real frame is Hermitian. *)
From Coq Require Import ZifyBool ZifyNat.
From Verif Require Import Base KernelProofs FftModel FftProofs VideoModel VideoProofs MapModel MapProofs Fft2Model Ordered.
Set Implicit Arguments.
Ltac Zify.zify_post_hook ::= Z.div_mod_to_equations.

(** f[-i, -j] = conj(f[i, j]) for all frequencies. *)
Definition hermitian {A} (cj : A -> A) (f : mat A) : Prop := forall ki kj, at_freq f (- ki) (- kj) = cj (at_freq f ki kj).

(** Two arrays have the same shape and the same entries. *)
Definition same {A} (x y : mat A) : Prop := mh x = mh y /\ mw x = mw y /\ forall i j, i < mh x -> j < mw x -> mat_at x i j = mat_at y i j.

(** Half-plane data that agrees with Hermitian data is completed to it. *)
Lemma complete_half A (junk : nat -> nat -> A) (cj : A -> A) (f half : mat A) : 1 <= mh f -> 1 <= mw f -> hermitian cj f -> mh half = mh f -> mw half = mw f / 2 + 1 ->
  (forall i j, i < mh half -> j < mw half -> mat_at half i j = mat_at f i j) ->
  exists full, from_rfft2_data junk cj half (Some (Z.of_nat (mh f), Z.of_nat (mw f))) = Ok full /\ same full f.
Proof.
  intros H0 H1 HF R C V. destruct (@from_rfft2_ok A junk cj half (Some (Z.of_nat (mh f), Z.of_nat (mw f))) (mw f)) as (full & E2 & R2 & C2 & V2); [lia|lia|exact C| |].
  { unfold as_fft2_shape. rewrite R, C. destruct (_ =? _)%Z eqn:E1; cbn [bind]; [|destruct (_ >? _)%Z eqn:E2; [lia|]; cbn [bind]].
    - replace (Z.of_nat (mh f) >? Z.of_nat (mh f))%Z with false by lia. reflexivity.
    - replace (Z.of_nat (mh f) >? Z.of_nat (mh f))%Z with false by lia. cbn [bind]. do 2 f_equal. lia. }
  exists full. split; [exact E2|]. split; [congruence|]. split; [exact C2|]. intros i j Hi Hj. rewrite V2 by lia. destruct (_ <? _) eqn:L.
  - apply V; lia.
  - rewrite V; [|rewrite R; apply freq_lt; lia|lia]. rewrite R. replace (mw f - j) with (Z.to_nat (- Z.of_nat j + Z.of_nat (mw f))) by lia.
    pose proof (HF (- Z.of_nat i)%Z (- Z.of_nat j)%Z) as Q. rewrite !Z.opp_involutive in Q. unfold at_freq in Q. rewrite (@freq_neg (mw f) (- Z.of_nat j)), (@freq_pos (mh f) (Z.of_nat i)), (@freq_pos (mw f) (Z.of_nat j)) in Q by lia.
    rewrite !Nat2Z.id in Q. symmetry. exact Q.
Qed.

Section Fft2.
  Variable K : Fld.
  Notation C := (Cx K).
  Add Field Kfft2 : (flaw K).
  Add Ring Cfft2 : (c_ring K).
  Variable W : nat -> C.

  Lemma conj_cofre (a : K) : conj (cofre a) = cofre a.
  Proof. unfold conj, cofre, cre, cim. cbn [fst snd]. f_equal. ring. Qed.
  Lemma freq_opp n k : 1 <= n -> (freq n (- k) + freq n k) mod n = 0.
  Proof.
    intros H. unfold freq. apply Nat2Z.inj. rewrite Nat2Z.inj_mod, Nat2Z.inj_add, !Z2Nat.id by (apply Z.mod_pos_bound; lia).
    rewrite <- Zplus_mod. replace (- k + k)%Z with 0%Z by lia. apply Z.mod_0_l. lia.
  Qed.
  Lemma pow_conj n (w : C) j k : 1 <= n -> is_root n w -> cpow w (j * freq n (- k)) = conj (cpow w (j * freq n k)).
  Proof.
    intros Hn Hw. set (a := freq n (- k)). set (b := freq n k).
    assert (E : cmul (cpow w (j * a)) (cpow w (j * b)) = c1 K).
    { rewrite <- cpow_add, <- Nat.mul_add_distr_l. rewrite (@pow_mod K n w) by (auto; lia). rewrite <- Nat.mul_mod_idemp_r by lia. unfold a, b. rewrite freq_opp by exact Hn. rewrite Nat.mul_0_r, Nat.mod_0_l by lia. reflexivity. }
    assert (F : cmul (cpow w (j * b)) (conj (cpow w (j * b))) = c1 K).
    { rewrite conj_pow, <- cpow_cmul. destruct Hw as [-> _]. apply cpow_1. }
    transitivity (cmul (cpow w (j * a)) (cmul (cpow w (j * b)) (conj (cpow w (j * b))))); [rewrite F; ring|].
    transitivity (cmul (cmul (cpow w (j * a)) (cpow w (j * b))) (conj (cpow w (j * b)))); [ring|]. rewrite E. ring.
  Qed.
  Lemma dft2_hermitian (x : mat C) : 1 <= mh x -> 1 <= mw x -> is_root (mh x) (W (mh x)) -> is_root (mw x) (W (mw x)) ->
    (forall i j, conj (mat_at x i j) = mat_at x i j) -> hermitian conj (Mat (mh x) (mw x) (dft2_at W x)).
  Proof.
    intros H1 H2 R1 R2 HR ki kj. unfold at_freq. cbn [mh mw mat_at]. unfold dft2_at. rewrite conj_Sum. apply Sum_ext. intros i _. rewrite conj_Sum. apply Sum_ext. intros j _.
    rewrite !conj_mul, HR, !pow_conj by assumption. reflexivity.
  Qed.
End Fft2.

Section Normalize.
  Variable K : OFld.
  Add Field Knormfft : (flaw K).
  Notation C := (Cx K).
  Local Notation "0" := (f0 K).
  Local Notation "1" := (f1 K).
  Local Infix "+" := (fadd K).
  Local Infix "*" := (fmul K).
  Lemma fsquare (x : K) : fle 0 (x * x).
  Proof.
    destruct (fle_total K 0 x) as [H|H]; [apply fle_mul_pos; exact H|].
    replace (x * x) with (fopp K x * fopp K x) by ring. assert (fle 0 (fopp K x)).
    { apply fle_cases in H. destruct H as [H|H]; [|rewrite H; apply fle_cases; right; ring]. apply fle_cases. left. replace 0 with (fopp K 0) by ring. rewrite <- flt_opp. exact H. }
    apply fle_mul_pos; assumption.
  Qed.
  Lemma fsquare0 (x : K) : x * x = 0 -> x = 0.
  Proof.
    intros H. destruct (flt K 0 x) eqn:E; [pose proof (flt_mul_pos K _ _ E E) as P; rewrite H, flt_irrefl in P; discriminate|].
    destruct (flt K x 0) eqn:F; [|symmetry; apply flt_total; assumption].
    assert (G : flt K 0 (fopp K x) = true) by (replace 0 with (fopp K 0) by ring; rewrite <- flt_opp; exact F).
    pose proof (flt_mul_pos K _ _ G G) as P. replace (fopp K x * fopp K x) with (x * x) in P by ring. rewrite H, flt_irrefl in P; discriminate.
  Qed.
  Lemma norm_nonzero (z : C) : z <> c0 K -> cnorm2 z <> 0.
  Proof.
    intros H E. apply H. destruct z as [a b]. unfold cnorm2, cre, cim in E. cbn [fst snd] in E.
    assert (A : fle (a * a) 0). { rewrite <- E. replace (a * a) with (a * a + 0) at 1 by ring. apply fle_add2; [apply fle_refl|apply fsquare]. }
    assert (A0 : a * a = 0) by (apply fle_antisym; [exact A|apply fsquare]).
    assert (B0 : b * b = 0) by (rewrite A0 in E; rewrite <- E; ring).
    unfold c0. f_equal; apply fsquare0; assumption.
  Qed.
  Lemma cdiv_self (z : C) : z <> c0 K -> cdiv z z = c1 K.
  Proof.
    intros H. pose proof (norm_nonzero H) as N. unfold cdiv, cscal, cmul, conj, c1, cnorm2, cre, cim in *. destruct z as [a b]. cbn [fst snd] in *. f_equal; field; exact N.
  Qed.
  Lemma cdiv_1 (z : C) : cdiv z (c1 K) = z.
  Proof.
    unfold cdiv, cscal, cmul, conj, c1, cnorm2, cre, cim. destruct z as [a b]. cbn [fst snd]. assert (N : 1 <> 0) by apply one_neq0. replace (1 * 1 + 0 * 0) with 1 by ring. f_equal; field; exact N.
  Qed.
  Lemma cdiv_scale (s a b : C) : s <> c0 K -> b <> c0 K -> cdiv (cmul s a) (cmul s b) = cdiv a b.
  Proof.
    intros H1 H2. apply norm_nonzero in H1. apply norm_nonzero in H2. unfold cdiv, cscal, cmul, conj, cnorm2, cre, cim in *. destruct s as [s t], a as [a a'], b as [b b']. cbn [fst snd] in *.
    assert (N : (fsub K (s * b) (t * b')) * (fsub K (s * b) (t * b')) + (s * b' + t * b) * (s * b' + t * b) = (s * s + t * t) * (b * b + b' * b')) by ring.
    rewrite N. set (p := s * s + t * t) in *. set (q := b * b + b' * b') in *.
    replace (finv K (p * q)) with (finv K p * finv K q) by (field; split; assumption).
    f_equal.
    - transitivity (finv K p * p * (finv K q * (a * b + a' * b'))); [unfold p; ring|]. transitivity (finv K q * (a * b + a' * b')); [field; split; assumption|]. ring.
    - transitivity (finv K p * p * (finv K q * (fsub K (a' * b) (a * b')))); [unfold p; ring|]. transitivity (finv K q * (fsub K (a' * b) (a * b'))); [field; split; assumption|]. ring.
  Qed.
End Normalize.
