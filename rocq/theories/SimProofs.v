(** Proofs about the model of sim.py. *)
From Coq Require Import ZifyBool ZifyNat Sorting.Sorted.
From Verif Require Import Base KernelProofs Ordered SimModel.
Set Implicit Arguments.
Local Open Scope Z_scope.

(** * data_trigger *)
Fixpoint increasing (l : list Z) : Prop := match l with [] => True | x :: l' => (forall y, In y l' -> x < y) /\ increasing l' end.
Lemma insert_uniq_in x l y : In y (insert_uniq x l) <-> y = x \/ In y l.
Proof.
  induction l as [|z l IH]; cbn [insert_uniq]; [cbn; intuition|]. destruct (Z.ltb_spec x z); [cbn; intuition|]. destruct (Z.eqb_spec x z) as [->|]; [cbn; intuition|]. cbn [In]. rewrite IH. intuition.
Qed.
Lemma insert_uniq_inc x l : increasing l -> increasing (insert_uniq x l).
Proof.
  induction l as [|z l IH]; cbn [insert_uniq]; [cbn; intuition|]. intros [H1 H2]. destruct (Z.ltb_spec x z).
  - split; [|split; assumption]. intros y [<-|Hy]; [assumption|]. specialize (H1 y Hy). lia.
  - destruct (Z.eqb_spec x z) as [->|]; [split; assumption|]. split; [|apply IH; exact H2]. intros y Hy. apply insert_uniq_in in Hy. destruct Hy as [->|Hy]; [lia|apply H1; exact Hy].
Qed.
Lemma sorted_set_in l y : In y (sorted_set l) <-> In y l.
Proof. induction l as [|x l IH]; [reflexivity|]. cbn [sorted_set fold_right]. fold (sorted_set l). rewrite insert_uniq_in, IH. cbn. intuition. Qed.
Lemma sorted_set_inc l : increasing (sorted_set l).
Proof. induction l as [|x l IH]; [exact I|]. cbn [sorted_set fold_right]. apply insert_uniq_inc. exact IH. Qed.
Lemma existsb_eq_in i l : existsb (Z.eqb i) l = true <-> In i l.
Proof. rewrite existsb_exists. split; [intros (x & H & E); apply Z.eqb_eq in E; subst; exact H|intros H; exists i; split; [exact H|apply Z.eqb_refl]]. Qed.
Lemma existsb_eq_notin i l : ~ In i l -> existsb (Z.eqb i) l = false.
Proof. intros H. destruct (existsb (Z.eqb i) l) eqn:E; [|reflexivity]. apply existsb_eq_in in E. contradiction. Qed.
(** Items with their numbers *)
Definition enumerate (A : Type) (i : Z) (data : list A) : list (Z * A) := combine (map (fun k => i + Z.of_nat k) (seq 0 (length data))) data.
Lemma enumerate_cons A i (d : A) data : enumerate i (d :: data) = (i, d) :: enumerate (i + 1) data.
Proof. unfold enumerate. cbn [length seq map combine]. rewrite Z.add_0_r. f_equal. f_equal. rewrite <- seq_shift, map_map. apply map_ext. intros. lia. Qed.
Lemma enumerate_ge A i (data : list A) p : In p (enumerate i data) -> i <= fst p.
Proof. unfold enumerate. intros H. destruct p as [a b]. apply in_combine_l in H. apply in_map_iff in H. destruct H as (k & <- & _). cbn. lia. Qed.
Lemma trigger_loop_spec A ii t (data : list A) i : increasing (ii :: t) -> i <= ii ->
  trigger_loop i ii t data = map snd (filter (fun p => existsb (Z.eqb (fst p)) (ii :: t)) (enumerate i data)).
Proof.
  revert ii t i. induction data as [|d data IH]; intros ii t i HI Hi; [reflexivity|]. rewrite enumerate_cons. cbn [trigger_loop filter]. change (fst (i, d)) with i. destruct (Z.eqb_spec i ii) as [->|N].
  - assert (existsb (Z.eqb ii) (ii :: t) = true) as -> by (cbn; rewrite Z.eqb_refl; reflexivity). cbn [map snd]. f_equal. destruct HI as [H1 H2].
    destruct t as [|ii' t].
    + symmetry. assert (X : forall l : list (Z * A), (forall p, In p l -> ii + 1 <= fst p) -> filter (fun p => existsb (Z.eqb (fst p)) [ii]) l = []).
      { induction l as [|p l IHl]; intros H; [reflexivity|]. cbn [filter]. rewrite existsb_eq_notin; [apply IHl; intros; apply H; right; assumption|]. intros [E|[]]. specialize (H p (or_introl eq_refl)). lia. }
      rewrite X; [reflexivity|]. intros p Hp. apply enumerate_ge in Hp. exact Hp.
    + rewrite IH; [|exact H2|specialize (H1 ii' (or_introl eq_refl)); lia]. f_equal. apply filter_ext_in. intros p Hp. apply enumerate_ge in Hp. cbn [existsb]. replace (fst p =? ii) with false by lia. reflexivity.
  - rewrite existsb_eq_notin.
    + rewrite IH by (assumption || lia). reflexivity.
    + intros [E|E]; [congruence|]. destruct HI as [H1 _]. specialize (H1 _ E). lia.
Qed.
Lemma trigger_blocked A ii t (data : list A) i : ii < i -> trigger_loop i ii t data = [].
Proof. revert i. induction data as [|d data IH]; intros i H; [reflexivity|]. cbn [trigger_loop]. replace (i =? ii) with false by lia. apply IH. lia. Qed.

(** * particles_video *)
Section Particles.
  Variables P F : Type.
  Variable d : P.
  Variables frame1 frame2 : P -> F.
  Local Notation dual := (dual_loop frame1 frame2).
  Definition waits (n : Z) (t : list Z) : Prop := match t with [] => True | a :: _ => n <= a end.
  Lemma due_false i n t : waits n t -> i < n -> due i t = false.
  Proof. destruct t as [|a t]; [reflexivity|]. cbn. lia. Qed.
  Lemma dual_skip n : forall i l t1 t2 o1 o2, waits (i + Z.of_nat n) t1 -> waits (i + Z.of_nat n) t2 -> o1 = None \/ o2 = None ->
    dual i l t1 t2 o1 o2 = dual (i + Z.of_nat n) (skipn n l) t1 t2 o1 o2.
  Proof.
    induction n as [|n IH]; intros i l t1 t2 o1 o2 W1 W2 HO; [rewrite Z.add_0_r; reflexivity|]. destruct l as [|x l]; [reflexivity|]. cbn [dual_loop skipn].
    rewrite (@due_false _ _ _ W1), (@due_false _ _ _ W2) by lia. replace (i + Z.of_nat (S n)) with (i + 1 + Z.of_nat n) in * by lia. rewrite <- IH by assumption. destruct o1, o2; try reflexivity. destruct HO; discriminate.
  Qed.
  (** Both frames of a pair are exposed before the next pair *)
  Fixpoint chain (i : Z) (t1 t2 : list Z) : Prop :=
    match t1, t2 with
    | [], [] => True
    | a :: t1, b :: t2 => i <= Z.min a b /\ chain (Z.max a b + 1) t1 t2
    | _, _ => False
    end.
  Lemma chain_waits i t1 t2 : chain i t1 t2 -> waits i t1 /\ waits i t2.
  Proof. destruct t1, t2; cbn; try tauto. lia. Qed.
  Lemma skipn_cons n (l : list P) : (n < length l)%nat -> skipn n l = nth n l d :: skipn (S n) l.
  Proof. revert n. induction l as [|x l IH]; intros n H; [cbn in H; lia|]. destruct n; [reflexivity|]. cbn [skipn nth]. apply IH. cbn in H. lia. Qed.
  Lemma skipn_skipn' (A : Type) x y (l : list A) : skipn x (skipn y l) = skipn (x + y) l.
  Proof. revert l. induction y as [|y IH]; intros l; [rewrite Nat.add_0_r; reflexivity|]. rewrite Nat.add_succ_r. destruct l; [destruct x; reflexivity|]. apply IH. Qed.
  Definition pick (i : Z) (l : list P) (t : Z) : P := nth (Z.to_nat (t - i)) l d.
  Lemma pick_skip i n l t : i + Z.of_nat n <= t -> pick (i + Z.of_nat n) (skipn n l) t = pick i l t.
  Proof.
    intros H. unfold pick. replace (Z.to_nat (t - i)) with (n + Z.to_nat (t - (i + Z.of_nat n)))%nat by lia. generalize (Z.to_nat (t - (i + Z.of_nat n))) as m. clear. intros m. revert l. induction n as [|n IH]; intros l; [reflexivity|]. destruct l; [destruct m; reflexivity|]. apply IH.
  Qed.
  Lemma chain_ge i t1 t2 j : chain i t1 t2 -> j <= i -> forall p, In p (combine t1 t2) -> j <= fst p /\ j <= snd p.
  Proof.
    revert i t2. induction t1 as [|a t1 IH]; intros i [|b t2] H Hj p Hp; try contradiction. destruct H as [H1 H2]. destruct Hp as [<-|Hp]; [cbn; lia|]. apply (IH _ _ H2); [lia|exact Hp].
  Qed.
  Lemma dual_chain t1 : forall t2 i l, chain i t1 t2 -> (forall t, In t (t1 ++ t2) -> t < i + Z.of_nat (length l)) ->
    dual i l t1 t2 None None = map (fun p => (frame1 (pick i l (fst p)), frame2 (pick i l (snd p)))) (combine t1 t2).
  Proof.
    induction t1 as [|a t1 IH]; intros [|b t2] i l HC HT; try contradiction.
    - clear. revert i. induction l as [|x l IHl]; intros i; [reflexivity|]. cbn [dual_loop due]. apply IHl.
    - destruct HC as [H1 H2]. destruct (chain_waits _ _ _ H2) as [W1 W2]. cbn [combine map fst snd].
      assert (Ta : a < i + Z.of_nat (length l)) by (apply HT; left; reflexivity). assert (Tb : b < i + Z.of_nat (length l)) by (apply HT, in_or_app; right; left; reflexivity).
      set (n := Z.to_nat (Z.min a b - i)). rewrite (@dual_skip n) by (cbn; lia || auto). rewrite (@skipn_cons n) by lia. cbn [dual_loop due].
      set (m := Z.to_nat (Z.max a b - Z.min a b - 1)).
      assert (FIN : forall j l', j = Z.max a b + 1 -> l' = skipn (Z.to_nat (j - i)) l -> dual j l' t1 t2 None None = map (fun p => (frame1 (pick i l (fst p)), frame2 (pick i l (snd p)))) (combine t1 t2)).
      { intros j l' -> ->. rewrite IH.
        - apply map_ext_in. intros p Hp. pose proof (@chain_ge (Z.max a b + 1) t1 t2 (Z.max a b + 1) H2 ltac:(lia) p Hp) as [G1 G2].
          set (q := Z.to_nat (Z.max a b + 1 - i)). replace (Z.max a b + 1) with (i + Z.of_nat q) in * by lia. rewrite !pick_skip by assumption. reflexivity.
        - replace (Z.max a b + 1) with (Z.max a b + 1) by lia. exact H2.
        - intros t Ht. rewrite skipn_length. assert (t < i + Z.of_nat (length l)) by (apply HT; apply in_app_or in Ht; apply in_or_app; cbn; tauto). lia. }
      assert (PA : pick i l a = nth (Z.to_nat (a - i)) l d) by reflexivity. assert (PB : pick i l b = nth (Z.to_nat (b - i)) l d) by reflexivity. rewrite PA, PB.
      destruct (Z.lt_trichotomy a b) as [C|[C|C]].
      + replace (i + Z.of_nat n =? a) with true by lia. replace (i + Z.of_nat n =? b) with false by lia. cbn [tl].
        rewrite (@dual_skip m); [|destruct t1; cbn in *; lia|cbn; lia|auto]. replace (skipn m (skipn (S n) l)) with (skipn (Z.to_nat (b - i)) l) by (rewrite skipn_skipn'; f_equal; lia).
        rewrite skipn_cons by lia. cbn [dual_loop]. rewrite (@due_false _ (Z.max a b + 1) t1 W1) by lia. cbn [due]. replace (i + Z.of_nat n + 1 + Z.of_nat m =? b) with true by lia. cbn [tl]. f_equal; [repeat f_equal; lia|].
        apply FIN; [lia|]. f_equal. lia.
      + replace (i + Z.of_nat n =? a) with true by lia. replace (i + Z.of_nat n =? b) with true by lia. cbn [tl]. f_equal; [f_equal; repeat f_equal; lia|]. apply FIN; [lia|]. f_equal. lia.
      + replace (i + Z.of_nat n =? a) with false by lia. replace (i + Z.of_nat n =? b) with true by lia. cbn [tl].
        rewrite (@dual_skip m); [|cbn; lia|destruct t2; cbn in *; lia|auto]. replace (skipn m (skipn (S n) l)) with (skipn (Z.to_nat (a - i)) l) by (rewrite skipn_skipn'; f_equal; lia).
        rewrite skipn_cons by lia. cbn [dual_loop]. rewrite (@due_false _ (Z.max a b + 1) t2 W2) by lia. cbn [due]. replace (i + Z.of_nat n + 1 + Z.of_nat m =? a) with true by lia. cbn [tl]. f_equal; [repeat f_equal; lia|].
        apply FIN; [lia|]. f_equal. lia.
  Qed.
  (** Never more pairs than exposures *)
  Definition pending (o : option F) : nat := match o with None => 0 | Some _ => 1 end.
  Lemma dual_bound l : forall i t1 t2 o1 o2, (length (dual i l t1 t2 o1 o2) <= pending o1 + length t1 /\ length (dual i l t1 t2 o1 o2) <= pending o2 + length t2)%nat.
  Proof.
    induction l as [|x l IH]; intros i t1 t2 o1 o2; [cbn; lia|]. cbn [dual_loop].
    assert (D : forall t, due i t = true -> (length (tl t) + 1 = length t)%nat) by (intros [|]; cbn; [discriminate|lia]).
    assert (B : forall A (b : bool) (x y : A), (if b then x else y) = x \/ (if b then x else y) = y) by (intros A [] ? ?; auto).
    destruct (due i t1) eqn:D1, (due i t2) eqn:D2; repeat match goal with H : due i _ = true |- _ => apply D in H end.
    - specialize (IH (i + 1) (tl t1) (tl t2) None None). cbn [length pending] in *. destruct o1, o2; cbn [pending]; lia.
    - destruct o2 as [o2|]; [specialize (IH (i + 1) (tl t1) t2 None None); cbn [length pending] in *; destruct o1; cbn [pending]; lia|].
      specialize (IH (i + 1) (tl t1) t2 (Some (frame1 x)) None). cbn [pending] in *. destruct o1; cbn [pending]; lia.
    - destruct o1 as [o1|]; [specialize (IH (i + 1) t1 (tl t2) None None); cbn [length pending] in *; destruct o2; cbn [pending]; lia|].
      specialize (IH (i + 1) t1 (tl t2) None (Some (frame2 x))). cbn [pending] in *. destruct o2; cbn [pending]; lia.
    - destruct o1 as [o1|], o2 as [o2|]; cbn [length].
      + specialize (IH (i + 1) t1 t2 None None). cbn [pending] in *. lia.
      + specialize (IH (i + 1) t1 t2 (Some o1) None). cbn [pending] in *. lia.
      + specialize (IH (i + 1) t1 t2 None (Some o2)). cbn [pending] in *. lia.
      + specialize (IH (i + 1) t1 t2 None None). cbn [pending] in *. lia.
  Qed.
  Lemma dual_full t1 : forall t2 i l, length t1 = length t2 -> increasing t1 -> increasing t2 -> waits i t1 -> waits i t2 -> length (dual i l t1 t2 None None) = length t1 -> chain i t1 t2.
  Proof.
    induction t1 as [|a t1 IH]; intros [|b t2] i l HL I1 I2 W1 W2 H; try discriminate; [exact I|]. cbn [waits] in W1, W2. split; [lia|].
    set (n := Z.to_nat (Z.min a b - i)) in *. rewrite (@dual_skip n) in H by (cbn; lia || auto). destruct I1 as [I1a I1], I2 as [I2b I2]. cbn [length] in HL. injection HL as HL.
    assert (W1' : waits (a + 1) t1) by (destruct t1 as [|a' t1]; [exact I|specialize (I1a a' (or_introl eq_refl)); cbn; lia]).
    assert (W2' : waits (b + 1) t2) by (destruct t2 as [|b' t2]; [exact I|specialize (I2b b' (or_introl eq_refl)); cbn; lia]).
    destruct (skipn n l) as [|x l'] eqn:El; [discriminate|]. cbn [dual_loop due] in H.
    set (m := Z.to_nat (Z.max a b - Z.min a b - 1)) in *. destruct (Z.lt_trichotomy a b) as [C|[C|C]].
    - replace (i + Z.of_nat n =? a) with true in H by lia. replace (i + Z.of_nat n =? b) with false in H by lia. cbn [tl] in H. replace (i + Z.of_nat n + 1) with (a + 1) in H by lia.
      assert (N : waits (b + 1) t1).
      { destruct t1 as [|a' t1]; [exact I|]. cbn [waits] in *. destruct (Z_le_dec (b + 1) a') as [X|X]; [exact X|exfalso].
        set (m' := Z.to_nat (a' - (a + 1))) in *. rewrite (@dual_skip m') in H by (cbn; lia || auto). destruct (skipn m' l') as [|y l2]; [cbn in H; discriminate|]. cbn [dual_loop due] in H.
        replace (a + 1 + Z.of_nat m' =? a') with true in H by lia. cbn [tl] in H. destruct (a + 1 + Z.of_nat m' =? b); cbn [tl] in H.
        - pose proof (@dual_bound l2 (a + 1 + Z.of_nat m' + 1) t1 t2 None None) as [B1 B2]. cbn [length pending] in *. lia.
        - pose proof (@dual_bound l2 (a + 1 + Z.of_nat m' + 1) t1 (b :: t2) (Some (frame1 y)) None) as [B1 B2]. cbn [length pending] in *. lia. }
      rewrite (@dual_skip m) in H; [|destruct t1; cbn in *; lia|cbn; lia|auto]. destruct (skipn m l') as [|y l2]; [cbn in H; discriminate|]. cbn [dual_loop] in H. rewrite (@due_false _ (b + 1) t1 N) in H by lia. cbn [due] in H.
      replace (a + 1 + Z.of_nat m =? b) with true in H by lia. cbn [tl length] in H. injection H as H. replace (a + 1 + Z.of_nat m + 1) with (Z.max a b + 1) in H by lia.
      apply (IH t2 (Z.max a b + 1) l2); try assumption; replace (Z.max a b) with b by lia; assumption.
    - replace (i + Z.of_nat n =? a) with true in H by lia. replace (i + Z.of_nat n =? b) with true in H by lia. cbn [tl length] in H. injection H as H. replace (i + Z.of_nat n + 1) with (Z.max a b + 1) in H by lia.
      apply (IH t2 (Z.max a b + 1) l'); try assumption; replace (Z.max a b) with b by lia; [subst a|]; assumption.
    - replace (i + Z.of_nat n =? a) with false in H by lia. replace (i + Z.of_nat n =? b) with true in H by lia. cbn [tl] in H. replace (i + Z.of_nat n + 1) with (b + 1) in H by lia.
      assert (N : waits (a + 1) t2).
      { destruct t2 as [|b' t2]; [exact I|]. cbn [waits] in *. destruct (Z_le_dec (a + 1) b') as [X|X]; [exact X|exfalso].
        set (m' := Z.to_nat (b' - (b + 1))) in *. rewrite (@dual_skip m') in H by (cbn; lia || auto). destruct (skipn m' l') as [|y l2]; [cbn in H; discriminate|]. cbn [dual_loop due] in H.
        replace (b + 1 + Z.of_nat m' =? b') with true in H by lia. cbn [tl] in H. destruct (b + 1 + Z.of_nat m' =? a); cbn [tl] in H.
        - pose proof (@dual_bound l2 (b + 1 + Z.of_nat m' + 1) t1 t2 None None) as [B1 B2]. cbn [length pending] in *. lia.
        - pose proof (@dual_bound l2 (b + 1 + Z.of_nat m' + 1) (a :: t1) t2 None (Some (frame2 y))) as [B1 B2]. cbn [length pending] in *. lia. }
      rewrite (@dual_skip m) in H; [|cbn; lia|destruct t2; cbn in *; lia|auto]. destruct (skipn m l') as [|y l2]; [cbn in H; discriminate|]. cbn [dual_loop] in H. rewrite (@due_false _ (a + 1) t2 N) in H by lia. cbn [due] in H.
      replace (b + 1 + Z.of_nat m =? a) with true in H by lia. cbn [tl length] in H. injection H as H. replace (b + 1 + Z.of_nat m + 1) with (Z.max a b + 1) in H by lia.
      apply (IH t2 (Z.max a b + 1) l2); try assumption; replace (Z.max a b) with a by lia; assumption.
  Qed.
  (** One camera *)
  Local Notation single := (single_loop frame1).
  Lemma single_skip n : forall i l t, waits (i + Z.of_nat n) t -> single i l t = single (i + Z.of_nat n) (skipn n l) t.
  Proof.
    induction n as [|n IH]; intros i l t W; [rewrite Z.add_0_r; reflexivity|]. destruct l as [|x l]; [reflexivity|]. cbn [single_loop skipn]. rewrite (@due_false _ _ _ W) by lia.
    replace (i + Z.of_nat (S n)) with (i + 1 + Z.of_nat n) in * by lia. apply IH. exact W.
  Qed.
  Lemma single_blocked l : forall i b t, b < i -> single i l (b :: t) = [].
  Proof. induction l as [|x l IH]; intros i b t H; [reflexivity|]. cbn [single_loop due]. replace (i =? b) with false by lia. apply IH. lia. Qed.
  Lemma single_good good : forall i l rest, increasing good -> waits i good -> (forall t, In t good -> t < i + Z.of_nat (length l)) -> (forall b t, rest = b :: t -> b <= last good (i - 1)) ->
    single i l (good ++ rest) = map (fun t => frame1 (pick i l t)) good.
  Proof.
    induction good as [|a good IH]; intros i l rest HI W HT HB.
    - cbn [app map]. destruct rest as [|b rest].
      + clear. revert i. induction l as [|x l IHl]; intros i; [reflexivity|]. cbn [single_loop due]. apply IHl.
      + apply single_blocked. specialize (HB b rest eq_refl). cbn [last] in HB. lia.
    - cbn [app map]. cbn [waits] in W. destruct HI as [H1 H2]. assert (Ta : a < i + Z.of_nat (length l)) by (apply HT; left; reflexivity). set (n := Z.to_nat (a - i)). rewrite (@single_skip n) by (cbn; lia). rewrite (@skipn_cons n) by lia.
      cbn [single_loop due]. replace (i + Z.of_nat n =? a) with true by lia. cbn [tl]. f_equal. rewrite IH.
      + apply map_ext_in. intros t Ht. specialize (H1 t Ht). replace (i + Z.of_nat n + 1) with (i + Z.of_nat (S n)) by lia. rewrite pick_skip by lia. reflexivity.
      + exact H2.
      + destruct good as [|a' good]; [exact I|]. specialize (H1 a' (or_introl eq_refl)). cbn. lia.
      + intros t Ht. rewrite skipn_length. specialize (HT t (or_intror Ht)). lia.
      + intros b t E. specialize (HB b t E). destruct good as [|a' good]; [cbn [last] in *; lia|]. cbn [last] in HB |- *. replace (match good with [] => a' | _ :: _ => last good (i + Z.of_nat n + 1 - 1) end) with (match good with [] => a' | _ :: _ => last good (i - 1) end); [exact HB|].
        clear. destruct good as [|g good]; [reflexivity|]. revert g. induction good as [|h good IHg]; intros g; [reflexivity|]. apply (IHg h).
  Qed.
End Particles.

(** * Random times *)
Lemma randint_ok low high raw r : randint low high raw = Ok r -> low <= r < high.
Proof. unfold randint. destruct (Z.ltb_spec low high); [|discriminate]. intros E. injection E as <-. pose proof (Z.mod_pos_bound raw (high - low)). lia. Qed.
Lemma randint_total low high raw : low < high -> exists r, randint low high raw = Ok r.
Proof. intros H. unfold randint. replace (low <? high) with true by lia. eexists. reflexivity. Qed.
Lemma random_time_total n dt_min raw frames : forall i r1, 1 <= n -> dt_min <= n -> r1 < n -> exists t, random_time_loop n dt_min raw i frames r1 = Ok t.
Proof.
  induction frames as [|frames IH]; intros i r1 Hn Hd Hr; [eexists; reflexivity|]. cbn [random_time_loop]. destruct (@randint_total (Z.max 0 (dt_min - n + r1)) n (raw i) ltac:(lia)) as (r & Er). rewrite Er. cbn [bind].
  apply randint_ok in Er. destruct (IH (S i) r Hn Hd ltac:(lia)) as (t & ->). eexists. reflexivity.
Qed.
Lemma random_time_spec n dt_min raw frames : forall i r1 t, random_time_loop n dt_min raw i frames r1 = Ok t ->
  length t = frames /\ (forall k, (k < frames)%nat -> Z.of_nat (i + k) * n <= nth k t 0 < Z.of_nat (i + k + 1) * n) /\
  (forall k, (k < frames)%nat -> dt_min <= nth k t 0 - match k with O => Z.of_nat i * n - n + r1 | S k => nth k t 0 end).
Proof.
  induction frames as [|frames IH]; intros i r1 t E; cbn [random_time_loop] in E.
  - injection E as <-. repeat split; intros; lia.
  - destruct (randint (Z.max 0 (dt_min - n + r1)) n (raw i)) as [r|] eqn:Er; [|discriminate]. cbn [bind] in E. destruct (random_time_loop n dt_min raw (S i) frames r) as [rest|] eqn:E'; [|discriminate]. cbn [bind] in E. injection E as <-.
    apply randint_ok in Er. destruct (IH _ _ _ E') as (L & B & G). split; [cbn; lia|]. split.
    + intros [|k] Hk; cbn [nth]; [lia|]. specialize (B k ltac:(lia)). replace (i + S k)%nat with (S i + k)%nat by lia. exact B.
    + intros [|k] Hk; cbn [nth]; [lia|]. specialize (G k ltac:(lia)). destruct k as [|k]; [lia|exact G].
Qed.
Lemma randints_ok n size raw : 0 < n -> exists l, randints n size raw = Ok l /\ length l = size /\ forall k, (k < size)%nat -> nth k l 0 = raw k mod n.
Proof. intros H. unfold randints. replace (0 <? n) with true by lia. eexists. split; [reflexivity|]. split; [rewrite map_length, seq_length; reflexivity|]. intros k Hk. apply nth_map_seq. exact Hk. Qed.
Lemma nth_map_gen A B (f : A -> B) l k da db : (k < length l)%nat -> nth k (map f l) db = f (nth k l da).
Proof. intros H. rewrite (nth_indep _ db (f da)) by (rewrite map_length; exact H). apply map_nth. Qed.
Lemma times1_spec nframes n raw1 raw2 : 1 <= n -> exists t1 t2, create_random_times1 nframes n raw1 raw2 = Ok (t1, t2) /\ length t1 = nframes /\ length t2 = nframes /\
  forall k, (k < nframes)%nat -> nth k t1 0 = 2 * n * Z.of_nat k + raw1 k mod n /\ nth k t2 0 = 2 * n * Z.of_nat k + n * (raw2 k mod 2).
Proof.
  intros Hn. unfold create_random_times1. destruct (@randints_ok n nframes raw1 ltac:(lia)) as (r1 & -> & L1 & N1). destruct (@randints_ok 2 nframes raw2 ltac:(lia)) as (r2 & E2 & L2 & N2). rewrite E2. cbn [bind]. replace (2 * n =? 0) with false by lia.
  replace (n * 2 / (2 * n)) with 1 by (rewrite Z.mul_comm; symmetry; apply Z.div_same; lia). replace (n * 2 / 2) with n by (symmetry; apply Z.div_mul; lia).
  do 2 eexists. split; [reflexivity|]. rewrite !map_length, !combine_length, !map_length, seq_length, L1, L2, Nat.min_id. split; [reflexivity|]. split; [reflexivity|]. intros k Hk.
  rewrite !(@nth_map_gen _ _ _ _ k (0, 0)) by (rewrite combine_length, !map_length, seq_length; lia). rewrite !combine_nth by (rewrite !map_length, seq_length; lia). cbn [fst snd]. rewrite nth_map_seq by exact Hk.
  rewrite (@nth_map_gen _ _ _ r1 k 0), (@nth_map_gen _ _ _ r2 k 0) by lia. rewrite N1, N2 by exact Hk. lia.
Qed.
Lemma times2_spec nframes n raw1 raw2 raw3 : 1 <= n -> exists t1 t2, create_random_times2 nframes n raw1 raw2 raw3 = Ok (t1, t2) /\ length t1 = nframes /\ length t2 = nframes /\
  forall k, (k < nframes)%nat -> nth k t1 0 = 2 * n * Z.of_nat k + raw1 k mod n /\ nth k t2 0 = if raw3 k mod (2 * n) =? 0 then nth k t1 0 else 2 * n * Z.of_nat k + n * (raw2 k mod 2).
Proof.
  intros Hn. unfold create_random_times2. destruct (@times1_spec nframes n raw1 raw2 Hn) as (t1 & t2 & -> & L1 & L2 & N). cbn [bind fst snd]. destruct (@randints_ok (2 * n) nframes raw3 ltac:(lia)) as (r & -> & L & NR). cbn [bind].
  do 2 eexists. split; [reflexivity|]. rewrite !map_length, !combine_length, map_length, L, L1, L2, !Nat.min_id. split; [reflexivity|]. split; [reflexivity|]. intros k Hk. destruct (N k Hk) as [N1 N2]. split; [exact N1|].
  rewrite (@nth_map_gen _ _ _ _ k (false, (0, 0))) by (rewrite !combine_length, map_length; lia). rewrite combine_nth by (rewrite combine_length, map_length; lia). rewrite combine_nth by lia. cbn [fst snd]. rewrite (@nth_map_gen _ _ _ r k 0) by lia. rewrite NR by exact Hk.
  destruct (_ =? 0); [reflexivity|exact N2].
Qed.
