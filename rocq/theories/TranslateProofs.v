(** The Fourier transform of a translated frame. *)
From Verif Require Import Base FftModel FftProofs VideoModel MapModel MapProofs Fft2Model Fft2Proofs.
From Coq Require Import Permutation ZifyBool ZifyNat.
Set Implicit Arguments.

(** The frame moved by [a] rows and [b] columns around the edges: np.roll(frame, (a, b), (0, 1)). *)
Definition translate {A} (a b : Z) (x : mat A) : mat A :=
  Mat (mh x) (mw x) (fun i j => mat_at x (Z.to_nat ((Z.of_nat i - a) mod Z.of_nat (mh x))) (Z.to_nat ((Z.of_nat j - b) mod Z.of_nat (mw x)))).

Lemma nodup_map A B (f : A -> B) l : (forall x y, In x l -> In y l -> f x = f y -> x = y) -> NoDup l -> NoDup (map f l).
Proof.
  intros H N. induction N as [|x l Hx N IH]; [constructor|]. cbn [map]. constructor.
  - intros Hi. apply in_map_iff in Hi. destruct Hi as (y & E & Hy). apply Hx. rewrite <- (H y x); [exact Hy|right; exact Hy|left; reflexivity|exact E].
  - apply IH. intros a b Ha Hb. apply H; right; assumption.
Qed.
Section Moved.
  Variable n : nat.
  Hypothesis Hn : 1 <= n.
  Variable a : Z.
  Let s i := Z.to_nat ((Z.of_nat i - a) mod Z.of_nat n).
  Let r := Z.to_nat (a mod Z.of_nat n).
  Lemma moved_lt i : s i < n.
  Proof using Hn. unfold s. pose proof (Z.mod_pos_bound (Z.of_nat i - a) (Z.of_nat n) ltac:(lia)). lia. Qed.
  Lemma moved_back i : i < n -> (s i + r) mod n = i.
  Proof using Hn.
    intros Hi. apply Nat2Z.inj. rewrite Nat2Z.inj_mod, Nat2Z.inj_add. unfold s, r.
    pose proof (Z.mod_pos_bound (Z.of_nat i - a) (Z.of_nat n) ltac:(lia)). pose proof (Z.mod_pos_bound a (Z.of_nat n) ltac:(lia)).
    rewrite !Z2Nat.id by lia. rewrite <- Z.add_mod by lia. replace (Z.of_nat i - a + a)%Z with (Z.of_nat i) by lia. apply Z.mod_small. lia.
  Qed.
  Lemma moved_perm : Permutation (map s (seq 0 n)) (seq 0 n).
  Proof using Hn.
    apply NoDup_Permutation_bis.
    - apply nodup_map; [|apply seq_NoDup]. intros x y Hx Hy E. apply in_seq in Hx, Hy.
      rewrite <- (@moved_back x), <- (@moved_back y), E by lia. reflexivity.
    - rewrite map_length. auto.
    - intros x Hx. apply in_map_iff in Hx. destruct Hx as (y & <- & _). apply in_seq. pose proof (moved_lt y). lia.
  Qed.
  Variable K : Fld.
  Notation C := (Cx K).
  Add Ring CxT : (c_ring K).
  Ltac cr := match goal with |- @eq _ ?a ?b => change (@eq (Cx K) a b) end; ring.
  Variable w : C.
  Hypothesis Hw : is_root n w.
  Lemma moved_sum (G : nat -> C) k :
    Sum (cmon K) (seq 0 n) (fun i => cmul (G (s i)) (cpow w (i * k))) = Sum (cmon K) (seq 0 n) (fun i => cmul (cpow w (r * k)) (cmul (G i) (cpow w (i * k)))).
  Proof using Hn Hw.
    rewrite <- (@Sum_Permutation (cmon K) _ _ _ (fun i => cmul (cpow w (r * k)) (cmul (G i) (cpow w (i * k)))) moved_perm), Sum_map.
    apply Sum_ext. intros i Hi. apply in_seq in Hi.
    replace (cpow w (i * k)) with (cmul (cpow w (r * k)) (cpow w (s i * k))); [cr|].
    rewrite <- cpow_add, <- Nat.mul_add_distr_r.
    rewrite (@pow_mod K n w ltac:(lia) Hw ((r + s i) * k)), (@pow_mod K n w ltac:(lia) Hw (i * k)). f_equal.
    rewrite <- (Nat.mul_mod_idemp_l (r + s i)) by lia. rewrite (Nat.add_comm r), moved_back by lia. reflexivity.
  Qed.
End Moved.

Section Frame.
  Variable K : Fld.
  Notation C := (Cx K).
  Add Ring CxT2 : (c_ring K).
  Ltac cr := match goal with |- @eq _ ?a ?b => change (@eq (Cx K) a b) end; ring.
  Variable W : nat -> C.
  Lemma Sum_cmul A (l : list A) (c : C) g : Sum (cmon K) l (fun x => cmul c (g x)) = cmul c (Sum (cmon K) l g).
  Proof. induction l as [|x l IH]; [cbn; change (c0 K = cmul c (c0 K)); cr|]. rewrite !Sum_cons, IH. cbn [madd cmon]. cr. Qed.
  (** The factor of the transform at entry [k], [l] of frames of [h] rows and [w] columns *)
  Definition phase (h w : nat) (a b : Z) (k l : nat) : C :=
    cmul (cpow (W h) (Z.to_nat (a mod Z.of_nat h) * k)) (cpow (W w) (Z.to_nat (b mod Z.of_nat w) * l)).
  Lemma dft2_translate (x : mat C) a b k l : 1 <= mh x -> 1 <= mw x -> is_root (mh x) (W (mh x)) -> is_root (mw x) (W (mw x)) ->
    dft2_at W (translate a b x) k l = cmul (phase (mh x) (mw x) a b k l) (dft2_at W x k l).
  Proof.
    intros Hh Hw Rh Rw. unfold dft2_at, translate, phase. cbn [mh mw mat_at]. set (h := mh x) in *. set (w := mw x) in *.
    set (sh := fun i => Z.to_nat ((Z.of_nat i - a) mod Z.of_nat h)). set (sw := fun j => Z.to_nat ((Z.of_nat j - b) mod Z.of_nat w)).
    set (rh := Z.to_nat (a mod Z.of_nat h)). set (rw := Z.to_nat (b mod Z.of_nat w)).
    set (G := fun i => Sum (cmon K) (seq 0 w) (fun j => cmul (mat_at x i j) (cpow (W w) (j * l)))).
    transitivity (Sum (cmon K) (seq 0 h) (fun i => cmul (cpow (W w) (rw * l)) (cmul (G (sh i)) (cpow (W h) (i * k))))).
    - apply Sum_ext. intros i _. unfold G.
      transitivity (cmul (cpow (W h) (i * k)) (Sum (cmon K) (seq 0 w) (fun j => cmul (mat_at x (sh i) (sw j)) (cpow (W w) (j * l))))).
      { rewrite <- Sum_cmul. apply Sum_ext. intros j _. change (Z.to_nat ((Z.of_nat i - a) mod Z.of_nat h)) with (sh i). change (Z.to_nat ((Z.of_nat j - b) mod Z.of_nat w)) with (sw j). cr. }
      pose proof (@moved_sum w Hw b K (W w) Rw (fun j => mat_at x (sh i) j) l) as M. cbv beta in M. fold rw in M. rewrite Sum_cmul in M. etransitivity; [apply f_equal; exact M|]. cr.
    - rewrite Sum_cmul. pose proof (@moved_sum h Hh a K (W h) Rh G k) as M. fold rh in M. rewrite Sum_cmul in M. etransitivity; [apply f_equal; exact M|]. clear M.
      replace (Sum (cmon K) (seq 0 h) (fun i => cmul (G i) (cpow (W h) (i * k)))) with
        (Sum (cmon K) (seq 0 h) (fun i => Sum (cmon K) (seq 0 w) (fun j => cmul (mat_at x i j) (cmul (cpow (W h) (i * k)) (cpow (W w) (j * l)))))); [cr|].
      apply Sum_ext. intros i _. unfold G. transitivity (cmul (cpow (W h) (i * k)) (Sum (cmon K) (seq 0 w) (fun j => cmul (mat_at x i j) (cpow (W w) (j * l))))); [|cr].
      rewrite <- Sum_cmul. apply Sum_ext. intros j _. cr.
  Qed.
  Add Ring KrT : (F_R (flaw K)).
  Ltac kr := match goal with |- @eq _ ?a ?b => change (@eq (fcar K) a b) end; ring.
  Lemma unit_power (z : C) n : cmul z (conj z) = c1 K -> cnorm2 (cpow z n) = f1 K.
  Proof.
    intros H. assert (N : cnorm2 z = f1 K). { apply (f_equal cre) in H. unfold cmul, conj, c1, cre, cim, cnorm2 in *. cbn [fst snd] in *. rewrite <- H. unfold cre, cim. kr. }
    induction n as [|n IH]; [unfold cnorm2, cpow, c1, cre, cim; cbn [fst snd]; kr|]. cbn [cpow]. transitivity (fmul K (cnorm2 z) (cnorm2 (cpow z n))); [unfold cnorm2, cmul, cre, cim; cbn [fst snd]; kr|]. rewrite N, IH. kr.
  Qed.
  Lemma phase_norm h w a b k l : cmul (W h) (conj (W h)) = c1 K -> cmul (W w) (conj (W w)) = c1 K -> cnorm2 (phase h w a b k l) = f1 K.
  Proof.
    intros H1 H2. unfold phase. generalize (@unit_power (W h) (Z.to_nat (a mod Z.of_nat h) * k) H1) (@unit_power (W w) (Z.to_nat (b mod Z.of_nat w) * l) H2).
    generalize (cpow (W h) (Z.to_nat (a mod Z.of_nat h) * k)) (cpow (W w) (Z.to_nat (b mod Z.of_nat w) * l)). intros x y Hx Hy.
    transitivity (fmul K (cnorm2 x) (cnorm2 y)); [unfold cnorm2, cmul, cre, cim; cbn [fst snd]; kr|]. rewrite Hx, Hy. kr.
  Qed.
End Frame.
