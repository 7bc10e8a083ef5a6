(** Zero-padded arrays of samples and their circular correlation. *)
From Verif Require Import Base Kernels PairSpec KernelProofs PairLemmas RegularProofs CoreModel CoreProofs CoreProofs2 CoreProofs3
  FftModel FftProofs.
Set Implicit Arguments.

Section KeepLast.
  Variable A : Type.
  Implicit Types d : list (sample A).

  Lemma keep_last_In d s : In s (keep_last d) -> In s d.
  Proof.
    induction d as [|a d IH]; cbn [keep_last]; [auto|].
    destruct (existsb _ d); intros H; [right; auto|]. destruct H as [H|H]; [left; auto|right; auto].
  Qed.
  Lemma existsb_time d z : existsb (fun s' : sample A => snd s' =? z)%Z d = true <-> In z (map snd d).
  Proof.
    rewrite existsb_exists, in_map_iff. split; intros (s & H1 & H2); exists s.
    - apply Z.eqb_eq in H2. auto.
    - split; [auto|]. apply Z.eqb_eq; auto.
  Qed.
  Lemma keep_last_times d z : In z (map snd (keep_last d)) <-> In z (map snd d).
  Proof.
    induction d as [|a d IH]; [reflexivity|]. cbn [keep_last].
    destruct (existsb _ d) eqn:E.
    - apply existsb_time in E. rewrite IH. cbn [map In]. split; [auto|]. intros [<-|H]; auto.
    - cbn [map In]. rewrite IH. reflexivity.
  Qed.
  Lemma keep_last_distinct d : distinct (keep_last d).
  Proof.
    induction d as [|a d IH]; [constructor|]. cbn [keep_last].
    destruct (existsb _ d) eqn:E; [exact IH|]. cbn. constructor; [|exact IH].
    rewrite keep_last_times. intros H. apply existsb_time in H. congruence.
  Qed.
  Lemma keep_last_id d : distinct d -> keep_last d = d.
  Proof.
    induction d as [|a d IH]; [reflexivity|]. intros H. inversion H as [|x l Hn Hd]; subst. cbn [keep_last].
    destruct (existsb _ d) eqn:E; [apply existsb_time in E; contradiction|].
    rewrite IH by exact Hd. reflexivity.
  Qed.
End KeepLast.

Lemma keep_last_map A B (g : sample A -> sample B) (h : Z -> Z) d :
  (forall s, snd (g s) = h (snd s)) -> (forall a b, h a = h b -> a = b) ->
  keep_last (map g d) = map g (keep_last d).
Proof.
  intros Hg Hh. induction d as [|a d IH]; [reflexivity|]. cbn [map keep_last].
  assert (E : existsb (fun s' => snd s' =? snd (g a))%Z (map g d) = existsb (fun s' => snd s' =? snd a)%Z d).
  { clear IH. induction d as [|b d IH]; [reflexivity|]. cbn [map existsb]. rewrite IH. f_equal.
    rewrite !Hg. destruct (Z.eqb_spec (snd b) (snd a)) as [->|N]; [apply Z.eqb_refl|].
    apply Z.eqb_neq. intros G. apply Hh in G. auto. }
  rewrite E. destruct (existsb _ d); cbn [map]; rewrite IH; reflexivity.
Qed.
Lemma keep_last_shift A m (d : list (sample A)) : keep_last (map (shift_time m) d) = map (shift_time m) (keep_last d).
Proof. apply keep_last_map with (h := fun z => (z - m)%Z); [intros []; reflexivity|intros; lia]. Qed.
Lemma keep_last_neg A (d : list (sample A)) : keep_last (map (@neg_time A) d) = map (@neg_time A) (keep_last d).
Proof. apply keep_last_map with (h := Z.opp); [intros []; reflexivity|intros; lia]. Qed.
Lemma keep_last_val A B (h : A -> B) (d : list (sample A)) : keep_last (map (map_val h) d) = map (map_val h) (keep_last d).
Proof. apply keep_last_map with (h := fun z => z); [intros []; reflexivity|auto]. Qed.

(** [x] holds the samples [d] at their times, modulo its length. *)
Definition filled (K : Fld) (N : nat) (d : list (sample (Cx K))) (x : list (Cx K)) : Prop :=
  length x = N /\
  forall i, (i < N)%nat -> nth i x (c0 K) =
    Sum (cmon K) (filter (fun s : sample (Cx K) => snd s mod Z.of_nat N =? Z.of_nat i)%Z d) fst.

Section Filled.
  Variable K : Fld.
  Notation C := (Cx K).
  Add Field Kf : (flaw K).
  Add Ring Cr : (c_ring K).
  Notation csum := (Sum (cmon K)).
  Local Ltac cring := match goal with |- @eq _ ?a ?b => change (@eq C a b) end; ring.

  Lemma circ_filled N (d1 d2 : list (sample C)) x y m : N <> 0%nat ->
    filled N d1 x -> filled N d2 y ->
    circ x y m = csum (pairs_circular N (Z.of_nat m) d1 d2) (@cx_prod K).
  Proof.
    intros HN (Lx & Hx) (Ly & Hy). unfold circ. rewrite Lx.
    unfold pairs_circular. rewrite Sum_filter, Sum_list_prod.
    transitivity (csum (seq 0 N) (fun i => csum d1 (fun s => csum d2 (fun s' =>
      cmul (if (snd s mod Z.of_nat N =? Z.of_nat i)%Z then conj (fst s) else c0 K)
           (if (snd s' mod Z.of_nat N =? Z.of_nat ((i + m) mod N))%Z then fst s' else c0 K))))).
    { apply Sum_ext. intros i Hi. apply in_seq in Hi.
      rewrite Hx by lia. rewrite Hy by (apply Nat.mod_upper_bound; exact HN).
      rewrite !Sum_filter, conj_Sum, Sum_cmul_r. apply Sum_ext. intros s _.
      rewrite Sum_cmul_l. apply Sum_ext. intros s' _. cbn [m0 cmon].
      destruct (snd s mod Z.of_nat N =? Z.of_nat i)%Z; [reflexivity|]. rewrite conj_0. reflexivity. }
    rewrite Sum_swap. apply Sum_ext. intros s _.
    rewrite Sum_swap. apply Sum_ext. intros s' _.
    pose proof (Z.mod_pos_bound (snd s) (Z.of_nat N) ltac:(lia)) as B.
    transitivity (csum (seq 0 N) (fun i => if (i =? Z.to_nat (snd s mod Z.of_nat N))%nat then
       (if (delay (s, s') mod Z.of_nat N =? Z.of_nat m mod Z.of_nat N)%Z then cx_prod (s, s') else c0 K)
       else c0 K)).
    2:{ apply (@Sum_single (cmon K)). lia. }
    apply Sum_ext. intros i Hi. apply in_seq in Hi.
    destruct (Nat.eqb_spec i (Z.to_nat (snd s mod Z.of_nat N))) as [E|E].
    - replace (snd s mod Z.of_nat N =? Z.of_nat i)%Z with true by lia.
      replace (snd s' mod Z.of_nat N =? Z.of_nat ((i + m) mod N))%Z
        with (delay (s, s') mod Z.of_nat N =? Z.of_nat m mod Z.of_nat N)%Z.
      + destruct (delay (s, s') mod Z.of_nat N =? Z.of_nat m mod Z.of_nat N)%Z; [reflexivity|cring].
      + unfold delay; cbn [fst snd]. rewrite Nat2Z.inj_mod, Nat2Z.inj_add.
        replace (Z.of_nat i) with (snd s mod Z.of_nat N)%Z by lia.
        rewrite Zplus_mod_idemp_l.
        set (n := Z.of_nat N) in *. assert (n <> 0)%Z by lia.
        destruct (Z.eqb_spec ((snd s' - snd s) mod n) (Z.of_nat m mod n)) as [G|G];
          symmetry; [apply Z.eqb_eq|apply Z.eqb_neq].
        * replace (snd s') with ((snd s' - snd s) + snd s)%Z by lia.
          rewrite <- Zplus_mod_idemp_l, G, Zplus_mod_idemp_l. f_equal; lia.
        * intros G'. apply G. rewrite <- Zminus_mod_idemp_l, G', Zminus_mod_idemp_l. f_equal; lia.
    - replace (snd s mod Z.of_nat N =? Z.of_nat i)%Z with false by lia. cring.
  Qed.

  (** ** The ways in which the arrays are built *)
  Lemma pad2_filled (x : list C) : filled (length x * 2) (regular x) (pad2 x).
  Proof.
    split; [unfold pad2; rewrite app_length, repeat_length; lia|].
    intros i Hi. rewrite Sum_filter, (regular_map x (c0 K)), Sum_map. cbn [fst snd]. unfold pad2.
    destruct (le_lt_dec (length x) i) as [G|G].
    - rewrite app_nth2, nth_repeat_any by lia. symmetry. apply (@Sum_zero (cmon K)).
      intros j Hj. apply in_seq in Hj. rewrite Z.mod_small by lia.
      replace (Z.of_nat j =? Z.of_nat i)%Z with false by lia. reflexivity.
    - rewrite app_nth1 by lia. symmetry.
      etransitivity; [|apply (@Sum_single (cmon K) (length x) 0 i)]; [|lia].
      apply Sum_ext. intros j Hj. apply in_seq in Hj. rewrite Z.mod_small by lia.
      destruct (Nat.eqb_spec j i) as [->|N].
      + rewrite Z.eqb_refl. reflexivity.
      + replace (Z.of_nat j =? Z.of_nat i)%Z with false by lia. reflexivity.
  Qed.

  (** The times fit into an array of length [N] without collisions. *)
  Definition fits (N : nat) (t : list Z) : Prop :=
    (forall z, In z t -> (- Z.of_nat N < z < Z.of_nat N)%Z) /\
    (forall z z', In z t -> In z' t -> (Z.abs (z - z') < Z.of_nat N)%Z).

  Lemma fits_cons N z t : fits N (z :: t) -> fits N t.
  Proof. intros [H1 H2]. split; intros; [apply H1|apply H2]; right; auto. Qed.
  Lemma fits_neg N t : fits N t -> fits N (map Z.opp t).
  Proof.
    intros [H1 H2]. split.
    - intros z Hz. apply in_map_iff in Hz. destruct Hz as (y & <- & Hy). specialize (H1 y Hy). lia.
    - intros z z' Hz Hz'. apply in_map_iff in Hz. destruct Hz as (y & <- & Hy).
      apply in_map_iff in Hz'. destruct Hz' as (y' & <- & Hy'). specialize (H2 y y' Hy Hy'). lia.
  Qed.

  Lemma mod_inj (N : nat) a b : (a mod Z.of_nat N = b mod Z.of_nat N)%Z -> (Z.abs (a - b) < Z.of_nat N)%Z -> a = b.
  Proof.
    intros E H. assert (Z.of_nat N <> 0)%Z by lia.
    pose proof (Z.div_mod a (Z.of_nat N) ltac:(lia)). pose proof (Z.div_mod b (Z.of_nat N) ltac:(lia)).
    assert (a / Z.of_nat N = b / Z.of_nat N)%Z by nia. congruence.
  Qed.

  Lemma py_index_mod N m : (- Z.of_nat N < m < Z.of_nat N)%Z ->
    py_index N m = Some (Z.to_nat (m mod Z.of_nat N)).
  Proof.
    intros H. unfold py_index. destruct (m <? 0)%Z eqn:E.
    - replace ((0 <=? m + Z.of_nat N) && (m + Z.of_nat N <? Z.of_nat N))%Z%bool with true by lia.
      do 2 f_equal. apply Z.mod_unique with (-1)%Z; lia.
    - replace ((0 <=? m) && (m <? Z.of_nat N))%Z%bool with true by lia.
      rewrite Z.mod_small by lia. reflexivity.
  Qed.

  Definition fill_step (r : res (list C)) (s : C * Z) : res (list C) :=
    let* out := r in
    let (v, m) := s in
    if (m <? Z.of_nat (length out))%Z then
      match py_index (length out) m with
      | Some i => Ok (upd out i v)
      | None => Raise OutOfBounds
      end
    else Ok out.

  Lemma fill_fold N (d : list (sample C)) out : N <> 0%nat -> length out = N -> fits N (map snd d) ->
    exists o, fold_left fill_step d (Ok out) = Ok o /\ length o = N /\
      forall i, (i < N)%nat -> nth i o (c0 K) =
        if existsb (fun s => snd s mod Z.of_nat N =? Z.of_nat i)%Z d
        then csum (filter (fun s : sample C => snd s mod Z.of_nat N =? Z.of_nat i)%Z (keep_last d)) fst
        else nth i out (c0 K).
  Proof.
    intros HN. revert out. induction d as [|[v t] d IH]; intros out HL HF.
    - exists out. repeat split; auto.
    - cbn [fold_left]. cbn [map snd] in HF.
      pose proof (proj1 HF t (or_introl eq_refl)) as Ht.
      assert (S1 : fill_step (Ok out) (v, t) = Ok (upd out (Z.to_nat (t mod Z.of_nat N)) v)).
      { unfold fill_step. cbn [bind]. rewrite HL. replace (t <? Z.of_nat N)%Z with true by lia.
        rewrite py_index_mod by exact Ht. reflexivity. }
      rewrite S1.
      destruct (IH (upd out (Z.to_nat (t mod Z.of_nat N)) v)) as (o & Ho & Lo & Ho2).
      { rewrite upd_length; exact HL. } { eapply fits_cons; exact HF. }
      exists o. split; [exact Ho|]. split; [exact Lo|]. intros i Hi. rewrite Ho2 by exact Hi. clear Ho2 Ho IH.
      pose proof (Z.mod_pos_bound t (Z.of_nat N) ltac:(lia)) as B.
      cbn [existsb keep_last snd].
      assert (Hsame : existsb (fun s' : sample C => snd s' =? t)%Z d = true ->
                      (t mod Z.of_nat N =? Z.of_nat i)%Z = true ->
                      existsb (fun s => snd s mod Z.of_nat N =? Z.of_nat i)%Z d = true).
      { intros H1 H2. rewrite existsb_exists in *. destruct H1 as (s & H1 & H3). exists s. split; [exact H1|].
        apply Z.eqb_eq in H3. rewrite H3. exact H2. }
      destruct (existsb (fun s => snd s mod Z.of_nat N =? Z.of_nat i)%Z d) eqn:E.
      + rewrite orb_true_r. destruct (existsb (fun s' : sample C => snd s' =? t)%Z d) eqn:E2; [reflexivity|].
        cbn [filter snd]. destruct (t mod Z.of_nat N =? Z.of_nat i)%Z eqn:E3; [|reflexivity].
        exfalso. rewrite existsb_exists in E. destruct E as (s & H1 & H2).
        assert (snd s = t).
        { apply (@mod_inj N); [lia|]. apply (proj2 HF); [right; apply in_map; exact H1|left; reflexivity]. }
        assert (existsb (fun s' : sample C => snd s' =? t)%Z d = true); [|congruence].
        apply existsb_exists. exists s. split; [exact H1|]. apply Z.eqb_eq. assumption.
      + rewrite orb_false_r. destruct (t mod Z.of_nat N =? Z.of_nat i)%Z eqn:E3.
        * destruct (existsb (fun s' : sample C => snd s' =? t)%Z d) eqn:E2;
            [specialize (Hsame eq_refl eq_refl); congruence|].
          cbn [filter snd]. rewrite E3, Sum_cons. cbn [fst].
          replace (filter _ (keep_last d)) with (@nil (sample C)).
          2:{ symmetry. destruct (filter _ (keep_last d)) as [|s l] eqn:F; [reflexivity|]. exfalso.
              assert (Hin : In s (s :: l)) by (left; reflexivity). rewrite <- F in Hin.
              apply filter_In in Hin. destruct Hin as [Hin Hs]. apply keep_last_In in Hin.
              assert (existsb (fun s => snd s mod Z.of_nat N =? Z.of_nat i)%Z d = true); [|congruence].
              apply existsb_exists. exists s. auto. }
          rewrite Sum_nil, madd_0_r. replace (Z.to_nat (t mod Z.of_nat N)) with i by lia.
          apply nth_upd_same. lia.
        * apply nth_upd_other. lia.
  Qed.

  Lemma fill_filled N (d : list (sample C)) : N <> 0%nat -> fits N (map snd d) ->
    exists o, fold_left fill_step d (Ok (repeat (c0 K) N)) = Ok o /\ filled N (keep_last d) o.
  Proof.
    intros HN HF. destruct (@fill_fold N d (repeat (c0 K) N)) as (o & Ho & Lo & H2); auto.
    { apply repeat_length. }
    exists o. split; [exact Ho|]. split; [exact Lo|]. intros i Hi. rewrite H2 by exact Hi.
    destruct (existsb _ d) eqn:E; [reflexivity|].
    rewrite nth_repeat_any by exact Hi. rewrite Sum_filter. symmetry. apply (@Sum_zero (cmon K)).
    intros s Hs. apply keep_last_In in Hs. destruct (snd s mod Z.of_nat N =? Z.of_nat i)%Z eqn:E2; [|reflexivity].
    assert (existsb (fun s => snd s mod Z.of_nat N =? Z.of_nat i)%Z d = true); [|congruence].
    apply existsb_exists. exists s. auto.
  Qed.

  Lemma fill_data_filled N (x : list C) t : N <> 0%nat -> length x = length t -> fits N t ->
    exists o, _fill_data x t (repeat (c0 K) N) = Ok o /\ filled N (keep_last (combine x t)) o.
  Proof.
    intros HN HL HF. apply fill_filled; [exact HN|].
    rewrite snd_combine by lia. exact HF.
  Qed.

  (** The samples written by _fill_ones. *)
  Definition ones_at (t : list Z) : list (sample C) := map (pair (c1 K)) t.

  Lemma fill_ones_filled N t : N <> 0%nat -> fits N t ->
    exists o, _fill_ones t (repeat (c0 K) N) = Ok o /\ filled N (keep_last (ones_at t)) o.
  Proof.
    intros HN HF.
    destruct (@fill_filled N (ones_at t) HN) as (o & Ho & Hf).
    { unfold ones_at. rewrite map_map. cbn [snd]. rewrite map_id. exact HF. }
    exists o. split; [|exact Hf]. rewrite <- Ho. unfold _fill_ones, ones_at. rewrite fold_left_map. reflexivity.
  Qed.

  (** ** Circular pairs are ordinary pairs when the delays are small *)
  Lemma pairs_circular_signed A B L (m : Z) (d1 : list (sample A)) (d2 : list (sample B)) :
    (forall p, In p (list_prod d1 d2) -> (Z.abs (delay p) < Z.of_nat L)%Z) -> (Z.abs m <= Z.of_nat L)%Z ->
    pairs_circular (L * 2) m d1 d2 = pairs_signed m d1 d2.
  Proof.
    intros H Hm. unfold pairs_circular, pairs_signed. apply filter_ext_in. intros p Hp. specialize (H p Hp).
    destruct (Z.eqb_spec (delay p) m) as [->|N]; [apply Z.eqb_refl|].
    apply Z.eqb_neq. intros E. apply N. apply (@mod_inj (L * 2)); [exact E|lia].
  Qed.

  Lemma pairs_circular_opp A B N (m : nat) (d1 : list (sample A)) (d2 : list (sample B)) : (m <= N)%nat -> N <> 0%nat ->
    pairs_circular N (Z.of_nat (N - m)) d1 d2 = pairs_circular N (- Z.of_nat m) d1 d2.
  Proof.
    intros H HN. unfold pairs_circular. apply filter_ext. intros p.
    replace (Z.of_nat (N - m) mod Z.of_nat N)%Z with ((- Z.of_nat m) mod Z.of_nat N)%Z; [reflexivity|].
    replace (Z.of_nat (N - m)) with (- Z.of_nat m + 1 * Z.of_nat N)%Z by lia.
    rewrite Z_mod_plus by lia. reflexivity.
  Qed.
End Filled.
