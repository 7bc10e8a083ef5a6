(** C76: alignment of complex correlation data, shift_data and equalize_data; selection of pixels, take_data. *)
From Coq Require Import Reals Lra Lia.
From Verif Require Import Base FftReals NormModel ShiftModel ShiftProofs Prop_SectorReals.
Set Implicit Arguments.
Local Open Scope R_scope.

(** What np.arctan2 computes: an angle of the point (x, y) between -pi and pi (both are possible
    for negative x and y = 0). *)
Definition is_arctan2 (arctan2 : nat -> R -> R -> R) : Prop :=
  forall i y x, - PI <= arctan2 i y x <= PI /\ x = sqrt (x * x + y * y) * cos (arctan2 i y x) /\ y = sqrt (x * x + y * y) * sin (arctan2 i y x).
(** What the complex np.sqrt computes: the root in the right half plane. *)
Definition is_csqrt (csqrt : nat -> C -> C) : Prop := forall i z, cmul (csqrt i z) (csqrt i z) = z /\ 0 <= @cre RF (csqrt i z).

(** Both exist. *)
Lemma arctan2_exists : is_arctan2 (fun _ => arctan2).
Proof. intros i y x. pose proof (arctan2_range y x). pose proof (polar y x) as [P1 P2]. unfold hypot in P1, P2. split; [lra|]. split; assumption. Qed.
Definition principal_root (z : C) : C :=
  let r := cabs z in (sqrt ((r + @cre RF z) / 2), if Rlt_dec (@cim RF z) 0 then - sqrt ((r - @cre RF z) / 2) else sqrt ((r - @cre RF z) / 2)).
Lemma csqrt_exists : is_csqrt (fun _ => principal_root).
Proof.
  intros _ [x y]. unfold principal_root, cabs, cre, cim. cbn [fst snd]. set (r := sqrt (x * x + y * y)).
  assert (R0 : 0 <= r) by apply sqrt_pos. assert (R2 : r * r = x * x + y * y) by (apply sqrt_sqrt; nra).
  assert (A1 : - r <= x) by nra. assert (A2 : x <= r) by nra.
  set (a := sqrt ((r + x) / 2)). set (b := sqrt ((r - x) / 2)). assert (B1 : 0 <= a) by apply sqrt_pos. assert (B2 : 0 <= b) by apply sqrt_pos.
  assert (B3 : a * a = (r + x) / 2) by (apply sqrt_sqrt; lra). assert (B4 : b * b = (r - x) / 2) by (apply sqrt_sqrt; lra).
  assert (B5 : (2 * (a * b)) * (2 * (a * b)) = y * y). { replace (2 * (a * b) * (2 * (a * b))) with (4 * (a * a) * (b * b)) by ring. rewrite B3, B4. nra. }
  clearbody a b r. split; [|exact B1]. unfold cmul, cre, cim. cbn [fst snd RF fadd fmul fsub].
  destruct (Rlt_dec y 0) as [Y|Y]; f_equal; try lra.
  - assert (P : (2 * (a * b) + y) * (2 * (a * b) - y) = 0) by lra. apply Rmult_integral in P. assert (0 <= a * b) by nra. lra.
  - assert (P : (2 * (a * b) + y) * (2 * (a * b) - y) = 0) by lra. apply Rmult_integral in P. assert (0 <= a * b) by nra. lra.
Qed.

(** Data of an aligned experiment has opposite delays conjugate, c(-i) = conj(c(i)); a translation between the cameras
    turns all values by one angle [phi].  [L = 2n - 1] values. *)
Definition misaligned (n : nat) (c : nat -> C) (phi : R) (data : list C) : Prop :=
  (0 < n)%nat /\ length data = (2 * n - 1)%nat /\ nth 0 data (c0 RF) = cmul (c 0%nat) (cexp phi) /\
  forall i, (0 < i < n)%nat -> nth i data (c0 RF) = cmul (c i) (cexp phi) /\ nth (length data - i) data (c0 RF) = cmul (conj (c i)) (cexp phi).

(** * shift_data *)

(** The result has the shape and the absolute values of the data; the entry at delay 0 is real, and the values at
    opposite delays have opposite angles. *)
Theorem C76_shift arctan2 empty data : length empty = length data -> data <> [] ->
  exists out, shift_data arctan2 true empty data = Ok out /\ length out = length data /\ nth 0 out (c0 RF) = (cabs (nth 0 data (c0 RF)), 0) /\
    forall i, (0 < i < (length data + 1) / 2)%nat -> exists phase,
      nth i out (c0 RF) = @cscal RF (cabs (nth i data (c0 RF))) (cexp phase) /\
      nth (length data - i) out (c0 RF) = @cscal RF (cabs (nth (length data - i) data (c0 RF))) (cexp (- phase)).
Proof.
  intros HE HD. destruct (@shift_data_spec arctan2 empty data HE HD) as (out & E & H1 & H2 & H3 & _). exists out. split; [exact E|]. split; [exact H1|]. split; [exact H2|].
  intros i Hi. destruct (H3 i Hi) as [A B]. exists (shifted_angle arctan2 data i). split; [exact A|]. rewrite B. f_equal. unfold cexp, conj, cre, cim. cbn [fst snd RF fopp]. rewrite cos_neg, sin_neg. reflexivity.
Qed.

Lemma cexp_mul a b : @cmul RF (cexp a) (cexp b) = cexp (a + b).
Proof. unfold cmul, cexp, cre, cim. cbn [fst snd RF fadd fmul fsub]. rewrite cos_plus, sin_plus. f_equal; ring. Qed.
Lemma cexp_conj a : @conj RF (cexp a) = cexp (- a).
Proof. unfold cexp, conj, cre, cim. cbn [fst snd RF fopp]. rewrite cos_neg, sin_neg. reflexivity. Qed.
Lemma cexp_unit a : cos a * cos a + sin a * sin a = 1.
Proof. pose proof (sin2_cos2 a) as H. unfold Rsqr in H. lra. Qed.
Lemma cabs_turn c phi : cabs (cmul c (cexp phi)) = cabs c.
Proof.
  unfold cabs, cmul, cexp, cre, cim. cbn [fst snd RF fadd fmul fsub]. f_equal. pose proof (cexp_unit phi) as U.
  transitivity ((fst c * fst c + snd c * snd c) * (cos phi * cos phi + sin phi * sin phi)); [ring|]. rewrite U. ring.
Qed.
Lemma cabs_conj c : cabs (@conj RF c) = cabs c.
Proof. unfold cabs, conj, cre, cim. cbn [fst snd RF fopp]. f_equal. ring. Qed.
Lemma cabs_pos c : c <> c0 RF -> 0 < cabs c.
Proof.
  intros H. unfold cabs, cre, cim. apply sqrt_lt_R0. destruct c as [x y]. cbn [fst snd]. destruct (Req_dec x 0) as [->|X]; [|nra]. destruct (Req_dec y 0) as [->|Y]; [|nra]. exfalso. apply H. reflexivity.
Qed.
Lemma polar_form arctan2 i z : is_arctan2 arctan2 -> z = @cscal RF (cabs z) (cexp (arctan2 i (@cim RF z) (@cre RF z))).
Proof. intros H. destruct z as [x y]. destruct (H i y x) as (_ & P1 & P2). unfold cscal, cabs, cexp, cre, cim. cbn [fst snd RF fmul]. f_equal; assumption. Qed.
Section Roots.
  Add Ring CxShift : (c_ring RF).
  Lemma same_square (w v : C) : cmul w w = cmul v v -> w = v \/ w = copp v.
  Proof.
    intros H. assert (P : cmul (csub w v) (cadd w v) = c0 RF). { transitivity (csub (cmul w w) (cmul v v)); [ring|]. rewrite H. ring. }
    destruct (Req_dec (fst (csub w v)) 0) as [Z1|Z1]; [destruct (Req_dec (snd (csub w v)) 0) as [Z2|Z2]|].
    - left. assert (Z : csub w v = c0 RF) by (destruct (csub w v); cbn in Z1, Z2; subst; reflexivity). transitivity (cadd (csub w v) v); [ring|]. rewrite Z. ring.
    - right. apply Cx_integral in P; [|intros C; apply Z2; rewrite C; reflexivity]. transitivity (csub (cadd w v) v); [ring|]. rewrite P. ring.
    - right. apply Cx_integral in P; [|intros C; apply Z1; rewrite C; reflexivity]. transitivity (csub (cadd w v) v); [ring|]. rewrite P. ring.
  Qed.
End Roots.

(** For every misalignment phi and every aligned value c(i), the result at delay i is |c(i)| e^(i phi) up to the sign: the angle of the
    misalignment stays, the angle of c(i) is lost. *)
Theorem C76_shift_result arctan2 empty data n c phi i : is_arctan2 arctan2 -> length empty = length data -> misaligned n c phi data -> (0 < i < n)%nat -> c i <> c0 RF ->
  exists out, shift_data arctan2 true empty data = Ok out /\
    (nth i out (c0 RF) = @cscal RF (cabs (c i)) (cexp phi) \/ nth i out (c0 RF) = @cscal RF (- cabs (c i)) (cexp phi)).
Proof.
  intros HA HE (Hn & HL & H0 & HM) Hi Hc. assert (HD : data <> []) by (intros ->; cbn in HL; lia).
  destruct (@shift_data_spec arctan2 empty data HE HD) as (out & E & _ & _ & H3 & _). exists out. split; [exact E|].
  assert (Hi' : (0 < i < (length data + 1) / 2)%nat). { rewrite HL. replace (2 * n - 1 + 1)%nat with (n * 2)%nat by lia. rewrite Nat.div_mul by lia. exact Hi. }
  destruct (H3 i Hi') as [A _]. destruct (HM i Hi) as [M1 M2]. rewrite A, M1, cabs_turn. unfold shifted_angle. rewrite M1, M2.
  set (d := cmul (c i) (cexp phi)). set (e := conj (cmul (conj (c i)) (cexp phi))).
  pose proof (polar_form i d HA) as P1. pose proof (polar_form (length data + i) e HA) as P2. set (a := arctan2 i (@cim RF d) (@cre RF d)) in *. set (b := arctan2 (length data + i)%nat (@cim RF e) (@cre RF e)) in *.
  assert (Ad : cabs d = cabs (c i)) by apply cabs_turn. assert (Ae : cabs e = cabs (c i)) by (unfold e; rewrite cabs_conj, cabs_turn; apply cabs_conj). rewrite Ad in P1. rewrite Ae in P2.
  pose proof (cabs_pos Hc) as HP. set (r := cabs (c i)) in *.
  assert (Q : r * r = @cre RF (c i) * @cre RF (c i) + @cim RF (c i) * @cim RF (c i)) by (apply sqrt_sqrt; nra).
  assert (S : cmul (cexp ((a - b) / 2)) (cexp ((a - b) / 2)) = cmul (cexp phi) (cexp phi)).
  { rewrite !cexp_mul. replace ((a - b) / 2 + (a - b) / 2) with (a - b) by field.
    assert (X : @cscal RF (r * r) (cexp (a - b)) = @cscal RF (r * r) (cexp (phi + phi))).
    { transitivity (cmul d (conj e)).
      - rewrite P1, P2 at 1. unfold Rminus. rewrite <- cexp_mul, <- cexp_conj. clear. unfold cscal, cmul, conj, cexp, cre, cim. cbn [fst snd RF fadd fmul fsub fopp]. f_equal; ring.
      - unfold d, e. rewrite Q, <- cexp_mul. clear. unfold cscal, cmul, conj, cre, cim. cbn [fst snd RF fadd fmul fsub fopp]. f_equal; ring. }
    unfold cscal, cexp, cre, cim in X. cbn [fst snd RF fmul] in X. injection X as X1 X2. unfold cexp. assert (Z : r * r <> 0) by nra. f_equal; [apply (Rmult_eq_reg_l _ _ _ X1 Z)|apply (Rmult_eq_reg_l _ _ _ X2 Z)]. }
  apply same_square in S. destruct S as [->| ->]; [left; reflexivity|right]. unfold cscal, copp, cexp, cre, cim. cbn [fst snd RF fmul fopp]. f_equal; ring.
Qed.

Lemma cim_turn r a : @cim RF (@cscal RF r (cexp a)) = r * sin a.
Proof. reflexivity. Qed.
(** So the documented purpose, to remove the angle of the misalignment, is not met: neither for aligned data (phi = 0)
    with a value that is not real, nor for real values turned by an angle that is not a multiple of pi. *)
Theorem C76_shift_refuted arctan2 empty data n c phi i out : is_arctan2 arctan2 -> length empty = length data -> misaligned n c phi data -> (0 < i < n)%nat ->
  (phi = 0 /\ @cim RF (c i) <> 0) \/ (@cim RF (c i) = 0 /\ @cre RF (c i) <> 0 /\ sin phi <> 0) ->
  shift_data arctan2 true empty data = Ok out -> nth i out (c0 RF) <> c i.
Proof.
  intros HA HE HM Hi H E. assert (Hc : c i <> c0 RF). { intros Z. rewrite Z in H. unfold cim, cre, c0 in H; cbn [fst snd RF f0] in H. destruct H as [[_ H]|[_ [H _]]]; apply H; reflexivity. }
  destruct (@C76_shift_result arctan2 empty data n c phi i HA HE HM Hi Hc) as (o & E' & R). rewrite E in E'. injection E' as <-. intros F. rewrite F in R. pose proof (cabs_pos Hc) as HP.
  destruct H as [[-> H]|(H1 & H2 & H3)].
  - destruct R as [R|R]; apply (f_equal (@cim RF)) in R; rewrite cim_turn in R; rewrite sin_0, Rmult_0_r in R; exact (H R).
  - destruct R as [R|R]; apply (f_equal (@cim RF)) in R; rewrite cim_turn in R; rewrite H1 in R; nra.
Qed.

(** An even number of values leaves the middle one as np.empty_like gave it. *)
Theorem C76_even arctan2 csqrt empty data out out' : length empty = length data -> (0 < length data)%nat -> (length data mod 2 = 0)%nat ->
  shift_data arctan2 true empty data = Ok out -> equalize_data csqrt true empty data = Ok out' ->
  nth (length data / 2) out (c0 RF) = nth (length data / 2) empty (c0 RF) /\ nth (length data / 2) out' (c0 RF) = nth (length data / 2) empty (c0 RF).
Proof.
  intros HE HL HM E1 E2. assert (HD : data <> []) by (intros ->; cbn in HL; lia).
  destruct (@shift_data_spec arctan2 empty data HE HD) as (o & F & _ & _ & _ & G). rewrite E1 in F. injection F as <-.
  destruct (@equalize_data_spec csqrt empty data HE HD) as (o & F & _ & _ & _ & G'). rewrite E2 in F. injection F as <-. split; auto.
Qed.
(** Real data and empty data are refused. *)
Theorem C76_errors arctan2 csqrt empty data :
  shift_data arctan2 false empty data = Raise ValueError /\ equalize_data csqrt false empty data = Raise ValueError /\
  shift_data arctan2 true empty [] = Raise IndexError /\ equalize_data csqrt true empty [] = Raise IndexError.
Proof. repeat split; reflexivity. Qed.

(** * equalize_data *)

(** Opposite delays are conjugate, the value at delay 0 is real, and the value at delay i is the geometric mean. *)
Theorem C76_equalize csqrt empty data : is_csqrt csqrt -> length empty = length data -> data <> [] ->
  exists out, equalize_data csqrt true empty data = Ok out /\ length out = length data /\ nth 0 out (c0 RF) = (cabs (nth 0 data (c0 RF)), 0) /\
    forall i, (0 < i < (length data + 1) / 2)%nat ->
      cmul (nth i out (c0 RF)) (nth i out (c0 RF)) = cmul (nth i data (c0 RF)) (conj (nth (length data - i) data (c0 RF))) /\
      0 <= @cre RF (nth i out (c0 RF)) /\ nth (length data - i) out (c0 RF) = conj (nth i out (c0 RF)).
Proof.
  intros HS HE HD. destruct (@equalize_data_spec csqrt empty data HE HD) as (out & E & H1 & H2 & H3 & _). exists out. split; [exact E|]. split; [exact H1|]. split; [exact H2|].
  intros i Hi. destruct (H3 i Hi) as [A B]. destruct (HS i (cmul (nth i data (c0 RF)) (conj (nth (length data - i) data (c0 RF))))) as [S1 S2]. rewrite A in *. split; [exact S1|]. split; [exact S2|exact B].
Qed.
(** The misalignment is removed when the aligned value has a positive real part... *)
Theorem C76_equalize_result csqrt empty data n c phi i : is_csqrt csqrt -> length empty = length data -> misaligned n c phi data -> (0 < i < n)%nat ->
  exists out, equalize_data csqrt true empty data = Ok out /\
    (0 < @cre RF (c i) -> nth i out (c0 RF) = c i) /\ (@cre RF (c i) < 0 -> nth i out (c0 RF) = copp (c i)).
Proof.
  intros HS HE (Hn & HL & H0 & HM) Hi. assert (HD : data <> []) by (intros ->; cbn in HL; lia).
  destruct (@C76_equalize csqrt empty data HS HE HD) as (out & E & _ & _ & H3). exists out. split; [exact E|].
  assert (Hi' : (0 < i < (length data + 1) / 2)%nat). { rewrite HL. replace (2 * n - 1 + 1)%nat with (n * 2)%nat by lia. rewrite Nat.div_mul by lia. exact Hi. }
  destruct (H3 i Hi') as (A & B & _). destruct (HM i Hi) as [M1 M2]. rewrite M1, M2 in A.
  assert (Q : cmul (cmul (c i) (cexp phi)) (conj (cmul (conj (c i)) (cexp phi))) = cmul (c i) (c i)).
  { pose proof (cexp_unit phi) as U. destruct (c i) as [x y]. unfold cmul, conj, cexp, cre, cim. cbn [fst snd RF fadd fmul fsub fopp]. f_equal.
    - transitivity ((x * x - y * y) * (cos phi * cos phi + sin phi * sin phi)); [ring|rewrite U; ring].
    - transitivity ((x * y + y * x) * (cos phi * cos phi + sin phi * sin phi)); [ring|rewrite U; ring]. }
  rewrite Q in A. apply same_square in A. split; intros P; destruct A as [A|A]; rewrite A in *; try reflexivity; exfalso.
  - destruct (c i) as [x y]. unfold copp, cre in *. cbn [fst snd RF fopp] in *. lra.
  - destruct (c i) as [x y]. unfold copp, cre in *. cbn [fst snd RF fopp] in *. lra.
Qed.
(** ...but a value with a negative real part, an anticorrelation, changes its sign. *)
Theorem C76_equalize_refuted csqrt empty data n c phi i out : is_csqrt csqrt -> length empty = length data -> misaligned n c phi data -> (0 < i < n)%nat -> @cre RF (c i) < 0 ->
  equalize_data csqrt true empty data = Ok out -> nth i out (c0 RF) = copp (c i) /\ nth i out (c0 RF) <> c i.
Proof.
  intros HS HE HM Hi Hc E. destruct (@C76_equalize_result csqrt empty data n c phi i HS HE HM Hi) as (o & E' & _ & R). rewrite E in E'. injection E' as <-. rewrite (R Hc). split; [reflexivity|].
  destruct (c i) as [x y]. unfold copp, cre in *. cbn [fst snd RF fopp] in *. intros Z. injection Z as Z1 _. lra.
Qed.
(** Conjugate data with a positive real part (and a positive value at delay 0) is not changed, so that equalizing twice is equalizing once. *)
Theorem C76_equalize_twice csqrt csqrt' empty empty' data out : is_csqrt csqrt -> is_csqrt csqrt' -> length empty = length data -> length empty' = length data ->
  (length data mod 2 = 1)%nat -> (forall i, (0 < i < (length data + 1) / 2)%nat -> @cre RF (nth i out (c0 RF)) <> 0) ->
  equalize_data csqrt true empty data = Ok out -> equalize_data csqrt' true empty' out = Ok out.
Proof.
  intros HS HS' HE HE' HO HP E. assert (HD : data <> []) by (intros ->; cbn in HO; lia). destruct (@C76_equalize csqrt empty data HS HE HD) as (o & E1 & L1 & Z1 & H1). rewrite E in E1. injection E1 as <-.
  assert (HD' : out <> []) by (intros ->; destruct data; [congruence|discriminate]). destruct (@C76_equalize csqrt' empty' out HS' ltac:(lia) HD') as (o & E2 & L2 & Z2 & H2). rewrite E2. f_equal.
  apply list_nth_ext with (d := c0 RF); [exact L2|]. rewrite L2, L1. rewrite L1 in H2. set (L := length data) in *. set (n := ((L + 1) / 2)%nat) in *.
  assert (HL : L = (2 * n - 1)%nat). { pose proof (Nat.div_mod_eq L 2). unfold n. rewrite HO in H. set (h := (L / 2)%nat) in *. replace (L + 1)%nat with ((h + 1) * 2)%nat by lia. rewrite Nat.div_mul by lia. lia. }
  assert (Z : nth 0 o (c0 RF) = nth 0 out (c0 RF)).
  { rewrite Z2, Z1. unfold cabs at 1, cre, cim. cbn [fst snd]. f_equal. replace (cabs (nth 0 data (c0 RF)) * cabs (nth 0 data (c0 RF)) + 0 * 0) with (cabs (nth 0 data (c0 RF)) * cabs (nth 0 data (c0 RF))) by ring. apply sqrt_square. apply sqrt_pos. }
  assert (P : forall i, (0 < i < n)%nat -> nth i o (c0 RF) = nth i out (c0 RF)).
  { intros i Hi. destruct (H1 i Hi) as (A1 & A2 & A3). destruct (H2 i Hi) as (B1 & B2 & B3). rewrite A3 in B1. specialize (HP i Hi).
    assert (X : conj (conj (nth i out (c0 RF))) = nth i out (c0 RF)). { destruct (nth i out (c0 RF)) as [x y]. unfold conj, cre, cim. cbn [fst snd RF fopp]. f_equal. ring. }
    rewrite X in B1. apply same_square in B1. destruct B1 as [B1|B1]; [exact B1|]. exfalso. rewrite B1 in B2. destruct (nth i out (c0 RF)) as [x y]. unfold copp, cre in *. cbn [fst snd RF fopp] in *. lra. }
  intros i Hi. destruct (Nat.eq_dec i 0) as [->|N]; [exact Z|]. destruct (Nat.lt_ge_cases i n) as [G|G]; [apply P; lia|].
  replace i with (L - (L - i))%nat by lia. destruct (H1 (L - i)%nat ltac:(lia)) as (_ & _ & A3). destruct (H2 (L - i)%nat ltac:(lia)) as (_ & _ & B3). rewrite A3, B3, P by lia. reflexivity.
Qed.

(** * take_data *)

(** Every array but the counts (position 1) keeps the pixels of the mask; missing arrays stay missing. *)
Theorem C76_take A (data : list (option (list A))) mask i : (i < length data)%nat ->
  nth i (take_data data mask) None = if (i =? 1)%nat then nth i data None else option_map (fun rows => map snd (filter fst (combine mask rows))) (nth i data None).
Proof.
  intros Hi. unfold take_data. rewrite nth_indep with (d' := (fun p : nat * option (list A) => if negb (fst p =? 1)%nat then option_map (select mask) (snd p) else snd p) (0%nat, None)) by (rewrite map_length, combine_length, seq_length; lia).
  rewrite (map_nth (fun p : nat * option (list A) => if negb (fst p =? 1)%nat then option_map (select mask) (snd p) else snd p)). rewrite combine_nth by apply seq_length. cbn [fst snd]. rewrite seq_nth by exact Hi. cbn [Nat.add]. destruct (i =? 1)%nat; reflexivity.
Qed.
Print Assumptions C76_shift.
Print Assumptions C76_shift_result.
Print Assumptions C76_shift_refuted.
Print Assumptions C76_even.
Print Assumptions C76_errors.
Print Assumptions C76_equalize.
Print Assumptions C76_equalize_result.
Print Assumptions C76_equalize_refuted.
Print Assumptions C76_equalize_twice.
Print Assumptions C76_take.

(** Concrete cases: aligned data with the value 3i at delay 1, real data turned by a right angle, and an anticorrelation. *)
Lemma two_delays (c0' c1' : C) phi :
  misaligned 2 (fun i => if (i =? 0)%nat then c0' else c1') phi [cmul c0' (cexp phi); cmul c1' (cexp phi); cmul (conj c1') (cexp phi)].
Proof. split; [lia|]. split; [reflexivity|]. split; [reflexivity|]. intros i Hi. assert (i = 1)%nat as -> by lia. split; reflexivity. Qed.
Example C76_example :
  (exists out, shift_data (fun _ => arctan2) true (repeat (c0 RF) 3) [@cmul RF (2, 0) (cexp 0); @cmul RF (0, 3) (cexp 0); @cmul RF (@conj RF (0, 3)) (cexp 0)] = Ok out /\
     nth 0 out (c0 RF) = (2, 0) /\ nth 1 out (c0 RF) <> (0, 3)) /\
  (exists out, shift_data (fun _ => arctan2) true (repeat (c0 RF) 3) [@cmul RF (2, 0) (cexp (PI / 2)); @cmul RF (1, 0) (cexp (PI / 2)); @cmul RF (@conj RF (1, 0)) (cexp (PI / 2))] = Ok out /\
     nth 1 out (c0 RF) <> (1, 0)) /\
  (exists out, equalize_data (fun _ => principal_root) true (repeat (c0 RF) 3) [@cmul RF (2, 0) (cexp (PI / 2)); @cmul RF (1, 3) (cexp (PI / 2)); @cmul RF (@conj RF (1, 3)) (cexp (PI / 2))] = Ok out /\
     nth 1 out (c0 RF) = (1, 3)) /\
  (exists out, equalize_data (fun _ => principal_root) true (repeat (c0 RF) 3) [@cmul RF (2, 0) (cexp 0); @cmul RF (-1, 3) (cexp 0); @cmul RF (@conj RF (-1, 3)) (cexp 0)] = Ok out /\
     nth 1 out (c0 RF) = (1, -3)).
Proof.
  assert (P1 : sin (PI / 2) <> 0) by (rewrite sin_PI2; lra). split; [|split; [|split]].
  - set (data := [_; _; _]). pose proof (two_delays (2, 0) (0, 3) 0) as M. destruct (@C76_shift (fun _ => arctan2) (repeat (c0 RF) 3) data eq_refl ltac:(discriminate)) as (out & E & _ & Z & _).
    exists out. split; [exact E|]. split.
    + rewrite Z. change (nth 0 data (c0 RF)) with (@cmul RF (2, 0) (cexp 0)). rewrite cabs_turn. unfold cabs, cre, cim. cbn [fst snd]. f_equal. replace (2 * 2 + 0 * 0) with (2 * 2) by ring. apply sqrt_square. lra.
    + apply (@C76_shift_refuted (fun _ => arctan2) (repeat (c0 RF) 3) data 2 _ 0 1 out arctan2_exists eq_refl M); [lia| |exact E]. left. split; [reflexivity|]. unfold cim. cbn. lra.
  - set (data := [_; _; _]). pose proof (two_delays (2, 0) (1, 0) (PI / 2)) as M. destruct (@C76_shift (fun _ => arctan2) (repeat (c0 RF) 3) data eq_refl ltac:(discriminate)) as (out & E & _).
    exists out. split; [exact E|]. apply (@C76_shift_refuted (fun _ => arctan2) (repeat (c0 RF) 3) data 2 _ (PI / 2) 1 out arctan2_exists eq_refl M); [lia| |exact E]. right. unfold cim, cre. cbn. repeat split; lra || exact P1.
  - set (data := [_; _; _]). pose proof (two_delays (2, 0) (1, 3) (PI / 2)) as M. destruct (@C76_equalize_result (fun _ => principal_root) (repeat (c0 RF) 3) data 2 _ (PI / 2) 1 csqrt_exists eq_refl M ltac:(lia)) as (out & E & R & _).
    exists out. split; [exact E|]. apply R. unfold cre. cbn. lra.
  - set (data := [_; _; _]). pose proof (two_delays (2, 0) (-1, 3) 0) as M. destruct (@C76_equalize_result (fun _ => principal_root) (repeat (c0 RF) 3) data 2 _ 0 1 csqrt_exists eq_refl M ltac:(lia)) as (out & E & _ & R).
    exists out. split; [exact E|]. rewrite R by (unfold cre; cbn; lra). unfold copp, cre, cim. cbn [fst snd Nat.eqb RF fopp]. f_equal; ring.
Qed.
