(** Common foundations of the model: exceptions as values, exact numbers,
    complex pairs, finite sums, loops and Python array indexing.
    Nothing in this file models a particular function of /repo; it is the
    vocabulary in which the models are written. *)
From Coq Require Export List Arith ZArith Lia Bool Permutation.
From Coq Require Export Field_theory Ring_theory Ring Field.
From Coq Require Import ZifyBool ZifyNat.
From Coq Require Import QArith Qcanon.
Export ListNotations.
Set Implicit Arguments.

(* ------------------------------------------------------------------ *)
(** * Exceptions as values *)

(** The Python exception classes that occur in the models.  [OutOfBounds] is not
    a Python exception: it marks an unchecked read or write outside an array in
    compiled (numba, nopython) code, i.e. undefined behaviour. *)
Inductive pyexc :=
| ValueError | TypeError | IndexError | AssertionError | ZeroDivisionError
| StopIteration | UnboundLocalError | AttributeError | KeyError | ImportError | OutOfBounds.

Inductive res (A : Type) :=
| Ok (a : A)
| Raise (e : pyexc).
Arguments Ok {A} a.
Arguments Raise {A} e.

Definition bind {A B} (x : res A) (f : A -> res B) : res B :=
  match x with Ok a => f a | Raise e => Raise e end.
Notation "'let*' x ':=' a 'in' b" := (bind a (fun x => b))
  (at level 200, x pattern, a at level 100, b at level 200).

(* ------------------------------------------------------------------ *)
(** * Commutative monoids, for sums *)

Record CMon := {
  mcar :> Type;
  m0 : mcar;
  madd : mcar -> mcar -> mcar;
  madd_comm : forall a b, madd a b = madd b a;
  madd_assoc : forall a b c, madd a (madd b c) = madd (madd a b) c;
  madd_0_l : forall a, madd m0 a = a
}.

Lemma madd_0_r (M : CMon) (a : M) : madd M a (m0 M) = a.
Proof. rewrite madd_comm; apply madd_0_l. Qed.

Section Sums.
  Variable M : CMon.

  (** Sum of a list. *)
  Definition lsum (l : list M) : M := fold_right (madd M) (m0 M) l.

  (** Sum of [f x] over the elements of [l]. *)
  Definition Sum {A} (l : list A) (f : A -> M) : M := lsum (map f l).

  Lemma Sum_nil A (f : A -> M) : Sum [] f = m0 M.
  Proof. reflexivity. Qed.

  Lemma Sum_cons A (x : A) l (f : A -> M) : Sum (x :: l) f = madd M (f x) (Sum l f).
  Proof. reflexivity. Qed.

  Lemma Sum_app A (l1 l2 : list A) (f : A -> M) :
    Sum (l1 ++ l2) f = madd M (Sum l1 f) (Sum l2 f).
  Proof.
    induction l1 as [|x l1 IH]; simpl.
    - rewrite Sum_nil, madd_0_l; reflexivity.
    - rewrite !Sum_cons, IH, madd_assoc; reflexivity.
  Qed.

  Lemma Sum_ext A (l : list A) (f g : A -> M) :
    (forall x, In x l -> f x = g x) -> Sum l f = Sum l g.
  Proof.
    induction l as [|x l IH]; intros H; [reflexivity|].
    rewrite !Sum_cons, IH, H; [reflexivity| now left | intros; apply H; now right].
  Qed.

  Lemma Sum_zero A (l : list A) (f : A -> M) :
    (forall x, In x l -> f x = m0 M) -> Sum l f = m0 M.
  Proof.
    induction l as [|x l IH]; intros H; [reflexivity|].
    rewrite Sum_cons, IH, H; [apply madd_0_l| now left | intros; apply H; now right].
  Qed.

  Lemma madd_swap4 (a b c d : M) :
    madd M (madd M a b) (madd M c d) = madd M (madd M a c) (madd M b d).
  Proof.
    rewrite <- !madd_assoc. f_equal. rewrite !madd_assoc. f_equal. apply madd_comm.
  Qed.

  Lemma Sum_madd A (l : list A) (f g : A -> M) :
    Sum l (fun x => madd M (f x) (g x)) = madd M (Sum l f) (Sum l g).
  Proof.
    induction l as [|x l IH]; [symmetry; apply madd_0_l|].
    rewrite !Sum_cons, IH, madd_swap4; reflexivity.
  Qed.

  Lemma Sum_map A B (h : A -> B) (l : list A) (f : B -> M) :
    Sum (map h l) f = Sum l (fun x => f (h x)).
  Proof. unfold Sum; rewrite map_map; reflexivity. Qed.

  Lemma Sum_swap A B (la : list A) (lb : list B) (f : A -> B -> M) :
    Sum la (fun x => Sum lb (f x)) = Sum lb (fun y => Sum la (fun x => f x y)).
  Proof.
    induction la as [|x la IH].
    - rewrite Sum_nil. symmetry; apply Sum_zero; reflexivity.
    - rewrite Sum_cons, IH, <- Sum_madd. reflexivity.
  Qed.

  Lemma Sum_filter A (p : A -> bool) (l : list A) (f : A -> M) :
    Sum (filter p l) f = Sum l (fun x => if p x then f x else m0 M).
  Proof.
    induction l as [|x l IH]; [reflexivity|]; simpl.
    destruct (p x) eqn:E; rewrite ?Sum_cons, IH, ?E; [reflexivity|].
    rewrite madd_0_l; reflexivity.
  Qed.

  Lemma Sum_Permutation A (l1 l2 : list A) (f : A -> M) :
    Permutation l1 l2 -> Sum l1 f = Sum l2 f.
  Proof.
    induction 1 as [|x l l' _ IH|x y l|l l' l'' _ IH1 _ IH2]; [reflexivity| | |congruence].
    - rewrite !Sum_cons, IH; reflexivity.
    - rewrite !Sum_cons, !madd_assoc. f_equal. apply madd_comm.
  Qed.

  Lemma Sum_flat_map A B (h : A -> list B) (l : list A) (f : B -> M) :
    Sum (flat_map h l) f = Sum l (fun x => Sum (h x) f).
  Proof.
    induction l as [|x l IH]; [reflexivity|]; simpl.
    rewrite Sum_app, Sum_cons, IH; reflexivity.
  Qed.

  Lemma Sum_list_prod A B (la : list A) (lb : list B) (f : A * B -> M) :
    Sum (list_prod la lb) f = Sum la (fun a => Sum lb (fun b => f (a, b))).
  Proof.
    induction la as [|x la IH]; [reflexivity|]; simpl.
    rewrite Sum_app, Sum_cons, IH, Sum_map; reflexivity.
  Qed.
End Sums.
Arguments Sum M {A} l f.

(* ------------------------------------------------------------------ *)
(** * Exact numbers: fields of characteristic zero *)

Record Fld := {
  fcar :> Type;
  f0 : fcar; f1 : fcar;
  fadd : fcar -> fcar -> fcar;
  fmul : fcar -> fcar -> fcar;
  fsub : fcar -> fcar -> fcar;
  fopp : fcar -> fcar;
  fdiv : fcar -> fcar -> fcar;
  finv : fcar -> fcar;
  flaw : field_theory f0 f1 fadd fmul fsub fopp fdiv finv eq;
  fchar0 : forall n : nat, Nat.iter (S n) (fadd f1) f0 <> f0
}.

(** The image of a natural number in the field. *)
Definition fnat (K : Fld) (n : nat) : K := Nat.iter n (fadd K (f1 K)) (f0 K).

Lemma fnat_neq0 (K : Fld) n : n <> 0%nat -> fnat K n <> f0 K.
Proof. destruct n as [|n]; [congruence|]; intros _; apply fchar0. Qed.

Lemma fnat_S (K : Fld) n : fnat K (S n) = fadd K (f1 K) (fnat K n).
Proof. reflexivity. Qed.

(** The exact rationals, used for computed examples and witnesses. *)
Lemma Qc_char0_aux n : exists z : Z, (0 <= z)%Z /\
  Nat.iter n (Qcplus 1) 0%Qc = Q2Qc (inject_Z z).
Proof.
  induction n as [|n [z [Hz IH]]].
  - exists 0%Z; split; [lia|]. reflexivity.
  - exists (1 + z)%Z; split; [lia|].
    change (Nat.iter (S n) (Qcplus 1) 0%Qc) with (Qcplus 1 (Nat.iter n (Qcplus 1) 0%Qc)).
    rewrite IH. unfold Qcplus. apply Qc_is_canon. cbn [this Q2Qc].
    rewrite !Qred_correct. rewrite inject_Z_plus. reflexivity.
Qed.

Lemma Qc_char0 (n : nat) : Nat.iter (S n) (Qcplus 1) 0%Qc <> 0%Qc.
Proof.
  destruct (Qc_char0_aux n) as [z [Hz E]].
  change (Nat.iter (S n) (Qcplus 1) 0%Qc) with (Qcplus 1 (Nat.iter n (Qcplus 1) 0%Qc)).
  rewrite E. intros H.
  assert (H' : (this (1 + Q2Qc (inject_Z z))%Qc == this 0%Qc)%Q) by (rewrite H; reflexivity).
  unfold Qcplus in H'. cbn [this Q2Qc] in H'.
  rewrite !Qred_correct in H'. unfold Qeq, Qplus, inject_Z in H'. cbn [Qnum Qden this] in H'. destruct z; simpl in H'; lia.
Qed.

Definition QcF : Fld := {|
  fcar := Qc; f0 := 0%Qc; f1 := 1%Qc; fadd := Qcplus; fmul := Qcmult;
  fsub := Qcminus; fopp := Qcopp; fdiv := Qcdiv; finv := Qcinv;
  flaw := Qcft; fchar0 := Qc_char0 |}.

Lemma fadd_comm (K : Fld) (a b : K) : fadd K a b = fadd K b a.
Proof. apply (Radd_comm (F_R (flaw K))). Qed.
Lemma fadd_assoc (K : Fld) (a b c : K) : fadd K a (fadd K b c) = fadd K (fadd K a b) c.
Proof. apply (Radd_assoc (F_R (flaw K))). Qed.
Lemma fadd_0_l (K : Fld) (a : K) : fadd K (f0 K) a = a.
Proof. apply (Radd_0_l (F_R (flaw K))). Qed.

Definition fmon (K : Fld) : CMon :=
  {| mcar := K; m0 := f0 K; madd := fadd K; madd_comm := @fadd_comm K;
     madd_assoc := @fadd_assoc K; madd_0_l := @fadd_0_l K |}.
Canonical fmon.

(** Counting: natural numbers. *)
Definition natmon : CMon :=
  {| mcar := nat; m0 := 0%nat; madd := Nat.add; madd_comm := Nat.add_comm;
     madd_assoc := Nat.add_assoc; madd_0_l := Nat.add_0_l |}.
Canonical natmon.

(* ------------------------------------------------------------------ *)
(** * Complex numbers over a field *)

Section Complex.
  Variable K : Fld.
  Add Field Kfield : (flaw K).
  Local Notation "0" := (f0 K).
  Local Notation "1" := (f1 K).
  Local Infix "+" := (fadd K).
  Local Infix "*" := (fmul K).
  Local Infix "-" := (fsub K).
  Local Notation "- x" := (fopp K x).

  Definition Cx : Type := (K * K)%type.
  Definition cre (z : Cx) : K := fst z.
  Definition cim (z : Cx) : K := snd z.
  Definition c0 : Cx := (0, 0).
  Definition c1 : Cx := (1, 0).
  Definition cofre (a : K) : Cx := (a, 0).
  Definition cadd (z w : Cx) : Cx := (cre z + cre w, cim z + cim w).
  Definition csub (z w : Cx) : Cx := (cre z - cre w, cim z - cim w).
  Definition copp (z : Cx) : Cx := (- cre z, - cim z).
  Definition cmul (z w : Cx) : Cx :=
    (cre z * cre w - cim z * cim w, cre z * cim w + cim z * cre w).
  Definition conj (z : Cx) : Cx := (cre z, - cim z).
  Definition cscal (a : K) (z : Cx) : Cx := (a * cre z, a * cim z).
  (** |z|^2 *)
  Definition cnorm2 (z : Cx) : K := cre z * cre z + cim z * cim z.
  (** Re (conj z * w) *)
  Definition redot (z w : Cx) : K := cre z * cre w + cim z * cim w.

  Lemma redot_conj z w : redot z w = cre (cmul (conj z) w).
  Proof. unfold redot, cmul, conj, cre, cim; simpl; ring. Qed.

  Lemma redot_comm z w : redot z w = redot w z.
  Proof. unfold redot; ring. Qed.

  Lemma cadd_comm (z w : Cx) : cadd z w = cadd w z.
  Proof. unfold cadd, cre, cim; simpl; f_equal; ring. Qed.
  Lemma cadd_assoc (z w v : Cx) : cadd z (cadd w v) = cadd (cadd z w) v.
  Proof. unfold cadd, cre, cim; simpl; f_equal; ring. Qed.
  Lemma cadd_0_l (z : Cx) : cadd c0 z = z.
  Proof. destruct z; unfold cadd, c0, cre, cim; simpl; f_equal; ring. Qed.

  Definition cmon : CMon :=
    {| mcar := Cx; m0 := c0; madd := cadd; madd_comm := cadd_comm;
       madd_assoc := cadd_assoc; madd_0_l := cadd_0_l |}.

  Lemma c_ring : ring_theory c0 c1 cadd cmul csub copp (@eq Cx).
  Proof.
    constructor; intros; unfold c0, c1, cadd, csub, copp, cmul, cre, cim;
      repeat match goal with z : Cx |- _ => destruct z end; simpl; f_equal; ring.
  Qed.
End Complex.
Arguments cre {K} z.
Arguments cim {K} z.
Arguments cadd {K} z w.
Arguments csub {K} z w.
Arguments copp {K} z.
Arguments cmul {K} z w.
Arguments conj {K} z.
Arguments cscal {K} a z.
Arguments cnorm2 {K} z.
Arguments redot {K} z w.
Arguments cofre {K} a.

Canonical cmon.

(* ------------------------------------------------------------------ *)
(** * Loops *)

(** [for i in range(a, b): body] with the loop state threaded through. *)
Definition for_range {S : Type} (a b : nat) (body : nat -> S -> S) (s : S) : S :=
  fold_left (fun s i => body i s) (seq a (b - a)) s.

(** The same loop with a body that may raise. *)
Definition for_range_res {S : Type} (a b : nat) (body : nat -> S -> res S) (s : S) : res S :=
  fold_left (fun r i => let* s := r in body i s) (seq a (b - a)) (Ok s).

Lemma for_range_nil S a b body (s : S) : (b <= a)%nat -> for_range a b body s = s.
Proof. intros H; unfold for_range; replace (b - a)%nat with 0%nat by lia; reflexivity. Qed.

Lemma for_range_first S a b body (s : S) : (a < b)%nat ->
  for_range a b body s = for_range (Datatypes.S a) b body (body a s).
Proof.
  intros H; unfold for_range.
  replace (b - a)%nat with (Datatypes.S (b - Datatypes.S a)) by lia. reflexivity.
Qed.

Lemma for_range_last S a b body (s : S) : (a <= b)%nat ->
  for_range a (Datatypes.S b) body s = body b (for_range a b body s).
Proof.
  intros H; unfold for_range.
  replace (Datatypes.S b - a)%nat with (b - a + 1)%nat by lia.
  rewrite seq_app, fold_left_app. simpl. repeat f_equal; lia.
Qed.

Lemma for_range_ext S a b (f g : nat -> S -> S) s :
  (forall i s, (a <= i < b)%nat -> f i s = g i s) -> for_range a b f s = for_range a b g s.
Proof.
  intros H. unfold for_range.
  assert (H' : forall i s, In i (seq a (b - a)) -> f i s = g i s)
    by (intros i s' Hi; apply H; apply in_seq in Hi; lia).
  revert s H'. generalize (seq a (b - a)) as l. clear H.
  induction l as [|i l IH]; intros s H; [reflexivity|]; simpl.
  rewrite H by now left. apply IH. intros; apply H; now right.
Qed.

(** A loop over all positions of a list that only reads its elements is a fold
    over the list. *)
Lemma for_range_nth_gen S A (l : list A) (d : A) (body : A -> S -> S) s k :
  for_range k (k + length l) (fun i s => body (nth (i - k) l d) s) s =
  fold_left (fun s x => body x s) l s.
Proof.
  revert s k. induction l as [|x l IH]; intros s k; simpl.
  - apply for_range_nil; lia.
  - rewrite for_range_first by lia. rewrite Nat.sub_diag.
    rewrite <- (IH (body x s) (Datatypes.S k)).
    replace (k + Datatypes.S (length l))%nat with (Datatypes.S k + length l)%nat by lia.
    apply for_range_ext. intros i s' Hi.
    replace (i - k)%nat with (Datatypes.S (i - Datatypes.S k)) by lia. reflexivity.
Qed.

Lemma for_range_nth S A (l : list A) (d : A) (body : A -> S -> S) s :
  for_range 0 (length l) (fun i s => body (nth i l d) s) s =
  fold_left (fun s x => body x s) l s.
Proof.
  rewrite <- (for_range_nth_gen l d body s 0). apply for_range_ext.
  intros i s' _; rewrite Nat.sub_0_r; reflexivity.
Qed.

(** Invariant rule for a loop. *)
Lemma for_range_inv S (P : nat -> S -> Prop) a b body s :
  (a <= b)%nat -> P a s ->
  (forall i s, (a <= i < b)%nat -> P i s -> P (Datatypes.S i) (body i s)) ->
  P b (for_range a b body s).
Proof.
  intros Hab H0 Hstep. revert s H0 Hstep.
  remember (b - a)%nat as n eqn:E. revert a Hab E.
  induction n as [|n IH]; intros a Hab E s H0 Hstep.
  - replace b with a by lia. rewrite for_range_nil by lia. exact H0.
  - rewrite for_range_first by lia. apply IH; [lia|lia| |].
    + apply Hstep; [lia|exact H0].
    + intros; apply Hstep; [lia|assumption].
Qed.

(* ------------------------------------------------------------------ *)
(** * Array updates *)

(** [l[i] = v]; no effect outside the list. *)
Fixpoint upd {A} (l : list A) (i : nat) (v : A) : list A :=
  match l, i with
  | [], _ => []
  | _ :: l, 0%nat => v :: l
  | x :: l, S i => x :: upd l i v
  end.

Lemma upd_length A (l : list A) i v : length (upd l i v) = length l.
Proof. revert i; induction l as [|x l IH]; intros [|i]; simpl; auto. Qed.

Lemma nth_upd A (l : list A) i k v d :
  nth k (upd l i v) d = if (Nat.eqb k i && (i <? length l)%nat)%bool then v else nth k l d.
Proof.
  revert i k. induction l as [|x l IH]; intros i k.
  - destruct i, k; simpl; rewrite ?andb_false_r; reflexivity.
  - destruct i as [|i], k as [|k]; simpl; try reflexivity. rewrite IH.
    change (S i <? S (length l))%nat with (i <? length l)%nat. reflexivity.
Qed.

Lemma nth_upd_same A (l : list A) i v d : (i < length l)%nat -> nth i (upd l i v) d = v.
Proof.
  intros H; rewrite nth_upd, Nat.eqb_refl; simpl.
  destruct (Nat.ltb_spec i (length l)); [reflexivity|lia].
Qed.

Lemma nth_upd_other A (l : list A) i k v d : k <> i -> nth k (upd l i v) d = nth k l d.
Proof. intros H; rewrite nth_upd. destruct (Nat.eqb_spec k i); [lia|reflexivity]. Qed.

(** [out[i] += v] *)
Definition add_at (M : CMon) (l : list M) (i : nat) (v : M) : list M :=
  upd l i (madd M (nth i l (m0 M)) v).

Lemma add_at_length (M : CMon) l i (v : M) : length (add_at M l i v) = length l.
Proof. apply upd_length. Qed.

Lemma nth_add_at (M : CMon) l i k (v : M) : (i < length l)%nat ->
  nth k (add_at M l i v) (m0 M) = madd M (nth k l (m0 M)) (if Nat.eqb k i then v else m0 M).
Proof.
  intros H. unfold add_at. rewrite nth_upd.
  destruct (Nat.ltb_spec i (length l)); [|lia]. rewrite andb_true_r.
  destruct (Nat.eqb_spec k i) as [->|]; [reflexivity|]. rewrite madd_0_r; reflexivity.
Qed.

(** Lists are equal when they agree at every position. *)
Lemma list_nth_ext A (l1 l2 : list A) d :
  length l1 = length l2 -> (forall k, (k < length l1)%nat -> nth k l1 d = nth k l2 d) -> l1 = l2.
Proof. intros HL H. apply (nth_ext l1 l2 d d HL H). Qed.

(* ------------------------------------------------------------------ *)
(** * Python indexing *)

(** Position denoted by a Python index [i] into a sequence of length [len]
    (negative indices count from the end); [None] if it is out of range. *)
Definition py_index (len : nat) (i : Z) : option nat :=
  let z := if (i <? 0)%Z then (i + Z.of_nat len)%Z else i in
  if ((0 <=? z) && (z <? Z.of_nat len))%Z%bool then Some (Z.to_nat z) else None.

(** A slice bound with positive step: negative bounds count from the end and the
    result is clipped to [0, len]. *)
Definition py_bound (len : nat) (i : Z) : nat :=
  let z := if (i <? 0)%Z then (i + Z.of_nat len)%Z else i in
  Z.to_nat (Z.min (Z.max z 0) (Z.of_nat len)).

(** [l[a:b]] *)
Definition py_slice {A} (l : list A) (a b : Z) : list A :=
  let a := py_bound (length l) a in
  let b := py_bound (length l) b in
  firstn (b - a) (skipn a l).

(** [l[a:]] *)
Definition py_slice_from {A} (l : list A) (a : Z) : list A := skipn (py_bound (length l) a) l.

(** np.arange(n) *)
Definition arange (n : nat) : list Z := map Z.of_nat (seq 0 n).

Lemma arange_length n : length (arange n) = n.
Proof. unfold arange; rewrite map_length, seq_length; reflexivity. Qed.

Lemma nth_arange n i : (i < n)%nat -> nth i (arange n) 0%Z = Z.of_nat i.
Proof.
  intros H. unfold arange. rewrite (nth_indep _ 0%Z (Z.of_nat 0)) by (rewrite map_length, seq_length; lia).
  rewrite map_nth, seq_nth by lia. reflexivity.
Qed.

(** np.min / np.max of a non-empty integer array. *)
Definition zmin_list (t : list Z) : res Z :=
  match t with [] => Raise ValueError | x :: l => Ok (fold_left Z.min l x) end.
Definition zmax_list (t : list Z) : res Z :=
  match t with [] => Raise ValueError | x :: l => Ok (fold_left Z.max l x) end.

Lemma zmin_list_spec t m : zmin_list t = Ok m -> In m t /\ forall x, In x t -> (m <= x)%Z.
Proof.
  destruct t as [|x l]; [discriminate|]. simpl. intros [= <-].
  revert x. induction l as [|y l IH]; intros x; simpl.
  - split; [now left|]. intros z [->|[]]; lia.
  - destruct (IH (Z.min x y)) as [H1 H2]. split.
    + destruct H1 as [H1|H1]; [|tauto].
      rewrite <- H1. destruct (Z.min_spec x y) as [[_ E]|[_ E]]; rewrite E; tauto.
    + assert (Hm : (fold_left Z.min l (Z.min x y) <= Z.min x y)%Z) by (apply H2; now left).
      intros z [->|[->|Hz]]; [lia|lia|]. apply H2; now right.
Qed.

Lemma zmax_list_spec t m : zmax_list t = Ok m -> In m t /\ forall x, In x t -> (x <= m)%Z.
Proof.
  destruct t as [|x l]; [discriminate|]. simpl. intros [= <-].
  revert x. induction l as [|y l IH]; intros x; simpl.
  - split; [now left|]. intros z [->|[]]; lia.
  - destruct (IH (Z.max x y)) as [H1 H2]. split.
    + destruct H1 as [H1|H1]; [|tauto].
      rewrite <- H1. destruct (Z.max_spec x y) as [[_ E]|[_ E]]; rewrite E; tauto.
    + assert (Hm : (Z.max x y <= fold_left Z.max l (Z.max x y))%Z) by (apply H2; now left).
      intros z [->|[->|Hz]]; [lia|lia|]. apply H2; now right.
Qed.
