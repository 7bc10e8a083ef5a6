(** Lemmas about the masks of the viewers. *)
From Coq Require Import ZifyBool ZifyNat Permutation.
From Verif Require Import Base Ordered NormModel VideoModel MapModel MapProofs Fft2Proofs SectorModel SectorProofs3 SectorProofs4 ViewerModel.
Set Implicit Arguments.
Open Scope nat_scope.
Ltac Zify.zify_post_hook ::= Z.div_mod_to_equations.

(** The cell of the opposite wave vector *)
Definition opposite (h w : nat) (p : nat * nat) : nat * nat := (freq h (- Z.of_nat (fst p)), freq w (- Z.of_nat (snd p))).
Lemma freq_minus n i : 1 <= n -> i < n -> freq n (- Z.of_nat i) = if i =? 0 then 0 else n - i.
Proof.
  intros H1 H2. destruct (Nat.eqb_spec i 0) as [->|N].
  - rewrite freq_pos by lia. reflexivity.
  - rewrite freq_neg by lia. lia.
Qed.
Lemma opposite_in h w p : In p (cells h w) -> In (opposite h w p) (cells h w).
Proof. rewrite !in_cells. intros [H1 H2]. unfold opposite. cbn [fst snd]. split; apply freq_lt; lia. Qed.
Lemma opposite_twice h w p : In p (cells h w) -> opposite h w (opposite h w p) = p.
Proof.
  rewrite in_cells. destruct p as [i j]. cbn [fst snd]. intros [H1 H2]. unfold opposite. cbn [fst snd].
  assert (T : forall n a, a < n -> freq n (- Z.of_nat (freq n (- Z.of_nat a))) = a).
  { intros n a L. rewrite (@freq_minus n a) by lia. destruct (Nat.eqb_spec a 0) as [->|N]; rewrite freq_minus by lia; [reflexivity|]. replace (n - a =? 0) with false by lia. lia. }
  rewrite !T by lia. reflexivity.
Qed.
Lemma NoDup_list_prod A B (l : list A) (m : list B) : NoDup l -> NoDup m -> NoDup (list_prod l m).
Proof.
  assert (App : forall X (a b : list X), NoDup a -> NoDup b -> (forall x, In x a -> ~ In x b) -> NoDup (a ++ b)).
  { clear. intros X a b Ha Hb D. induction Ha as [|x a Hx Ha IH]; [exact Hb|]. cbn [app]. constructor.
    - rewrite in_app_iff. intros [Q|Q]; [contradiction|]. apply (D x); [left; reflexivity|exact Q].
    - apply IH. intros y Hy. apply D. right. exact Hy. }
  intros H1 H2. induction H1 as [|x l Hx H1 IH]; [constructor|]. cbn [list_prod]. apply App.
  - apply FinFun.Injective_map_NoDup; [intros a b E; congruence|exact H2].
  - exact IH.
  - intros [a b] P Q. apply in_map_iff in P. destruct P as (y & E & _). apply in_prod_iff in Q. injection E as <- <-. tauto.
Qed.
Lemma NoDup_cells h w : NoDup (cells h w).
Proof. apply NoDup_list_prod; apply seq_NoDup. Qed.

Section Core.
  Variable A : Type.
  Variable cj : A -> A.
  Variable h w : nat.
  (** the mask of the full plane, the computed pixels of the full plane *)
  Variable mask full : nat * nat -> bool.
  Variable half conj_mask c : nat * nat -> bool.
  Hypothesis Hh : 1 <= h.
  Hypothesis Hw : 1 <= w.
  Let wh := w / 2 + 1.
  Hypothesis half_ok : forall p, In p (cells h wh) -> half p = mask p || conj_mask p.
  Hypothesis conj_ok : forall p, In p (cells h wh) -> conj_mask p = if snd p =? 0 then false else mask (opposite h w p).
  Hypothesis full_ok : forall p, In p (cells h w) -> full p = if snd p <? (w + 1) / 2 then c p else c (opposite h w p).
  Variable F : nat * nat -> A.
  Hypothesis herm : forall p, In p (cells h w) -> F (opposite h w p) = cj (F p).
  (** no wave vector is selected along with its opposite, none of the last column of an even width *)
  Hypothesis single : forall p, In p (cells h w) -> mask p = true -> snd p <> 0 -> mask (opposite h w p) = false /\ 2 * snd p <> w.

  Definition lift (p : nat * nat) : nat * nat := if conj_mask p then opposite h w p else p.

  Lemma half_cell p : In p (cells h wh) -> In p (cells h w).
  Proof using All. rewrite !in_cells. subst wh. lia. Qed.
  Lemma full_left p : In p (cells h wh) -> 2 * snd p <> w -> full p = c p.
  Proof using All. intros H N. rewrite full_ok by (apply half_cell; exact H). apply in_cells in H. subst wh. replace (snd p <? (w + 1) / 2) with true by lia. reflexivity. Qed.
  Lemma full_right p : In p (cells h wh) -> snd p <> 0 -> 2 * snd p <> w -> full (opposite h w p) = c p.
  Proof using All.
    intros H N0 N. rewrite full_ok by (apply opposite_in, half_cell; exact H). rewrite opposite_twice by (apply half_cell; exact H).
    apply in_cells in H. unfold opposite. cbn [snd]. rewrite freq_minus by (subst wh; lia). replace (snd p =? 0) with false by lia. subst wh. replace (w - snd p <? (w + 1) / 2) with false by lia. reflexivity.
  Qed.
  Lemma opp_snd p : In p (cells h wh) -> snd p <> 0 -> snd (opposite h w p) = w - snd p.
  Proof using All. intros H N. apply in_cells in H. unfold opposite. cbn [snd]. subst wh. rewrite freq_minus by lia. replace (snd p =? 0) with false by lia. reflexivity. Qed.

  Definition chosen : list (nat * nat) := filter (fun p => mask p && full p) (cells h w).
  Definition half_chosen : list (nat * nat) := filter (fun p => half p && c p) (cells h wh).
  (** a cell of the half plane that is marked: it or its opposite is selected, not both *)
  Lemma marked p : In p (cells h wh) -> half p = true -> (conj_mask p = false /\ mask p = true /\ full p = c p) \/
    (conj_mask p = true /\ mask (opposite h w p) = true /\ mask p = false /\ full (opposite h w p) = c p /\ snd p <> 0 /\ 2 * snd p <> w).
  Proof using All.
    intros H E. pose proof (half_cell _ H) as H'. rewrite half_ok in E by exact H. rewrite conj_ok in * by exact H.
    destruct (Nat.eqb_spec (snd p) 0) as [Z|N].
    - left. rewrite orb_false_r in E. split; [reflexivity|]. split; [exact E|]. apply full_left; [exact H|lia].
    - apply orb_true_iff in E. destruct E as [E|E].
      + left. destruct (@single p H' E N) as [S1 S2]. split; [exact S1|]. split; [exact E|]. apply full_left; assumption.
      + right. pose proof (opp_snd _ H N) as OS. assert (B : snd p < w) by (apply in_cells in H'; lia).
        destruct (@single (opposite h w p)) as [S1 S2]; [apply opposite_in; exact H'|exact E|lia|].
        rewrite opposite_twice in S1 by exact H'. repeat split; try assumption; try lia. apply full_right; [assumption|assumption|lia].
  Qed.
  Lemma lift_in p : In p half_chosen -> In (lift p) chosen.
  Proof using All.
    unfold half_chosen, chosen, lift. rewrite !filter_In. intros [H E]. apply andb_true_iff in E. destruct E as [E1 E2]. pose proof (half_cell _ H) as H'.
    destruct (marked H E1) as [(-> & M & X)|(-> & M & _ & X & _)].
    - split; [exact H'|]. rewrite M, X. exact E2.
    - split; [apply opposite_in; exact H'|]. rewrite M, X. exact E2.
  Qed.
  Lemma lift_inj p q : In p half_chosen -> In q half_chosen -> lift p = lift q -> p = q.
  Proof using All.
    unfold half_chosen, lift. rewrite !filter_In. intros [H E] [H2 E'] EQ. apply andb_true_iff in E, E'. destruct E as [E1 E2], E' as [E1' E2']. pose proof (half_cell _ H) as H'. pose proof (half_cell _ H2) as H2'.
    destruct (marked H E1) as [(Cp & M & X)|(Cp & M & Mp & X & N & N2)], (marked H2 E1') as [(Cq & M' & X')|(Cq & M' & Mq & X' & N' & N2')]; rewrite Cp, Cq in EQ.
    - exact EQ.
    - (* columns: that of p is in the left half, that of the opposite of q is not *)
      exfalso. pose proof (opp_snd _ H2 N') as O. rewrite <- EQ in O. apply in_cells in H, H2. subst wh. lia.
    - exfalso. pose proof (opp_snd _ H N) as O. rewrite EQ in O. apply in_cells in H, H2. subst wh. lia.
    - rewrite <- (opposite_twice _ _ _ H'), EQ. apply opposite_twice. exact H2'.
  Qed.
  Lemma lift_onto p : In p chosen -> In p (map lift half_chosen).
  Proof using All.
    unfold chosen, half_chosen. rewrite filter_In. intros [H E]. apply andb_true_iff in E. destruct E as [M X]. apply in_map_iff.
    assert (B : fst p < h /\ snd p < w) by (apply in_cells; exact H).
    destruct (Nat.lt_ge_cases (snd p) ((w + 1) / 2)) as [L|L].
    - assert (Hc : In p (cells h wh)) by (apply in_cells; subst wh; lia). exists p. split.
      + unfold lift. rewrite conj_ok by exact Hc. destruct (Nat.eqb_spec (snd p) 0) as [|N]; [reflexivity|]. destruct (single H M N) as [-> _]. reflexivity.
      + apply filter_In. split; [exact Hc|]. rewrite half_ok, M by exact Hc. cbn [orb andb]. rewrite <- X. rewrite full_ok by exact H. replace (snd p <? (w + 1) / 2) with true by lia. reflexivity.
    - assert (N : snd p <> 0) by lia. destruct (single H M N) as [S1 S2].
      assert (O : snd (opposite h w p) = w - snd p) by (unfold opposite; cbn [snd]; rewrite freq_minus by lia; replace (snd p =? 0) with false by lia; reflexivity).
      assert (Hc : In (opposite h w p) (cells h wh)). { pose proof (opposite_in h w p H) as Q. apply in_cells in Q. apply in_cells. rewrite O in *. subst wh. lia. }
      assert (Cm : conj_mask (opposite h w p) = true). { rewrite conj_ok by exact Hc. rewrite O. replace (w - snd p =? 0) with false by lia. rewrite opposite_twice by exact H. exact M. }
      exists (opposite h w p). split.
      + unfold lift. rewrite Cm. apply opposite_twice. exact H.
      + apply filter_In. split; [exact Hc|]. rewrite half_ok, Cm, orb_true_r by exact Hc. cbn [andb]. rewrite <- X. rewrite full_ok by exact H. replace (snd p <? (w + 1) / 2) with false by lia. reflexivity.
  Qed.
  Lemma chosen_perm : Permutation (map lift half_chosen) chosen.
  Proof using All.
    apply NoDup_Permutation.
    - assert (ND : NoDup half_chosen) by (apply NoDup_filter, NoDup_cells). pose proof lift_inj as I. revert ND I. generalize half_chosen as l. induction l as [|p l IH]; intros ND I; [constructor|].
      inversion ND as [|? ? Hp ND']; subst. cbn [map]. constructor.
      + rewrite in_map_iff. intros (q & E & Q). assert (q = p) by (apply I; [right; exact Q|left; reflexivity|exact E]). congruence.
      + apply IH; [exact ND'|]. intros a b Ha Hb. apply I; right; assumption.
    - apply NoDup_filter, NoDup_cells.
    - intros p. split; [|apply lift_onto]. rewrite in_map_iff. intros (q & <- & Q). apply lift_in. exact Q.
  Qed.
  Lemma values_lift p : In p half_chosen -> F (lift p) = if conj_mask p then cj (F p) else F p.
  Proof using All.
    unfold half_chosen, lift. rewrite filter_In. intros [H _]. destruct (conj_mask p); [apply herm, half_cell; exact H|reflexivity].
  Qed.
  Theorem averaged_list : Permutation (map (fun p => if conj_mask p then cj (F p) else F p) half_chosen) (map F chosen).
  Proof using All.
    rewrite <- (Permutation_map F chosen_perm). rewrite map_map. rewrite (map_ext_in _ (fun p => F (lift p))); [reflexivity|]. intros p H. symmetry. apply values_lift. exact H.
  Qed.
End Core.
