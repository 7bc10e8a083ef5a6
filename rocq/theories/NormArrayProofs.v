(** Normalization of arrays is normalization of every pixel. *)
From Coq Require Import String.
From Verif Require Import Base NormModel NormArrayModel.
Open Scope string_scope.
Open Scope nat_scope.
Local Notation length := List.length.
Set Implicit Arguments.

Definition valid (p s : list nat) : Prop := Forall2 lt p s.

(** ** Broadcasting *)
Fixpoint fits_rev (b a : list nat) : Prop :=
  match b, a with
  | [], _ => True
  | y :: b, x :: a => (y = x \/ y = 1) /\ fits_rev b a
  | _ :: _, [] => False
  end.
Definition fits (b a : list nat) : Prop := fits_rev (rev b) (rev a).
Lemma fits_rev_refl a : fits_rev a a.
Proof. induction a as [|x a IH]; [exact Logic.I|]. split; [left; reflexivity|exact IH]. Qed.
Lemma bc_rev_fit : forall a b, fits_rev b a -> bc_rev a b = Some a.
Proof.
  induction a as [|x a IH]; intros [|y b] H; try reflexivity; [destruct H|]. destruct H as [H1 H2]. cbn [bc_rev]. rewrite (IH b H2).
  destruct (Nat.eqb_spec x y) as [E|N]; [reflexivity|]. destruct H1 as [E|E]; [congruence|]. subst y. destruct (Nat.eqb_spec x 1) as [->|_]; [congruence|]. reflexivity.
Qed.
Lemma bcast_fit a b : fits b a -> bcast a b = Some a.
Proof. intros H. unfold bcast. rewrite (bc_rev_fit _ _ H). cbn [option_map]. rewrite rev_involutive. reflexivity. Qed.
Lemma bcast_all_fit a l : Forall (fun b => fits b a) l -> bcast_all (a :: l) = Ok a.
Proof.
  intros H. unfold bcast_all. cbn [fold_left bind]. unfold bcast. cbn [rev bc_rev option_map]. rewrite rev_involutive. induction l as [|b l IH]; [reflexivity|]. inversion H as [|? ? H1 H2]; subst. cbn [fold_left bind]. change (option_map (@rev nat) (bc_rev (rev a) (rev b))) with (bcast a b). rewrite (@bcast_fit _ _ H1). apply IH. exact H2.
Qed.
Lemma fits_full s n : fits (s ++ [n]) (s ++ [n]).
Proof. apply fits_rev_refl. Qed.
Lemma fits_refl s : fits s s.
Proof. apply fits_rev_refl. Qed.
Lemma fits_new s n : fits (s ++ [1]) (s ++ [n]).
Proof. unfold fits. rewrite !rev_app_distr. cbn [rev app fits_rev]. split; [right; reflexivity|apply fits_rev_refl]. Qed.
Lemma fits_one s n : fits [1] (s ++ [n]).
Proof. unfold fits. rewrite rev_app_distr. cbn [rev app fits_rev]. split; [right; reflexivity|exact Logic.I]. Qed.
Lemma rev_repeat A (x : A) k : rev (repeat x k) = repeat x k.
Proof. induction k as [|k IH]; [reflexivity|]. cbn [repeat rev]. rewrite IH. symmetry. apply repeat_cons. Qed.
Lemma fits_count s n : fits (repeat 1 (length s) ++ [n]) (s ++ [n]).
Proof.
  unfold fits. rewrite !rev_app_distr, rev_repeat. cbn [rev app fits_rev]. split; [left; reflexivity|]. rewrite <- (rev_length s). generalize (rev s) as r. induction r as [|x r IH]; [exact Logic.I|]. cbn [length repeat fits_rev]. split; [right; reflexivity|exact IH].
Qed.

(** ** Entries *)
Lemma Forall2_app_last A B (R : A -> B -> Prop) p s a b : Forall2 R p s -> R a b -> Forall2 R (p ++ [a]) (s ++ [b]).
Proof. intros H1 H2. apply Forall2_app; [exact H1|]. constructor; [exact H2|constructor]. Qed.
Lemma valid_rev p s : valid p s -> valid (rev p) (rev s).
Proof. unfold valid. induction 1 as [|a b p s H1 H2 IH]; [constructor|]. cbn [rev]. apply Forall2_app_last; assumption. Qed.
Lemma ix_rev_id p s : valid p s -> ix_rev s p = p.
Proof. unfold valid. induction 1 as [|a b p s H1 H2 IH]; [reflexivity|]. cbn [ix_rev]. rewrite IH. destruct (Nat.eqb_spec b 1); [|reflexivity]. f_equal. lia. Qed.
Lemma ix_id p s : valid p s -> ix s p = p.
Proof. intros H. unfold ix. rewrite ix_rev_id by (apply valid_rev; exact H). apply rev_involutive. Qed.
Lemma ix_last s p d t : ix (s ++ [d]) (p ++ [t]) = (ix s p ++ [if d =? 1 then 0 else t])%list.
Proof. unfold ix. rewrite !rev_app_distr. cbn [rev app ix_rev]. reflexivity. Qed.
Lemma ix_ones k p : length p = k -> ix (repeat 1 k) p = repeat 0 k.
Proof.
  intros H. unfold ix. rewrite rev_repeat. rewrite <- H, <- (rev_length p). generalize (rev p) as r. intros r. transitivity (rev (repeat 0 (length r))); [f_equal|apply rev_repeat]. induction r as [|x r IH]; [reflexivity|]. cbn [length repeat ix_rev Nat.eqb]. f_equal. exact IH.
Qed.
Lemma valid_length p s : valid p s -> length p = length s.
Proof. unfold valid. induction 1; [reflexivity|]. cbn [length]. lia. Qed.
Lemma look_full A (x : nd A) s n p t : shape x = (s ++ [n])%list -> valid p s -> t < n -> look x (p ++ [t]) = at_ x (p ++ [t])%list.
Proof. intros E H Ht. unfold look. rewrite E, ix_id; [reflexivity|]. apply Forall2_app_last; assumption. Qed.
Lemma look_pix A (x : nd A) s p : shape x = s -> valid p s -> look x p = at_ x p.
Proof. intros E H. unfold look. rewrite E, ix_id; [reflexivity|exact H]. Qed.
Lemma look_new A (x : nd A) s p t : shape x = s -> valid p s -> look (newaxis x) (p ++ [t]) = at_ x p.
Proof. intros E H. unfold look. cbn [shape newaxis at_]. rewrite E, ix_last, (ix_id H), removelast_last. reflexivity. Qed.
Lemma look_scalar A (x : nd A) p t : shape x = [] -> look (newaxis x) (p ++ [t]) = at_ x [].
Proof. intros E. unfold look. cbn [shape newaxis at_]. rewrite E, ix_last, removelast_last. reflexivity. Qed.
Lemma shape_count A (x : nd A) n k : shape x = [n] -> shape (expand k x) = (repeat 1 k ++ [n])%list.
Proof. intros E. unfold expand. cbn [shape]. rewrite E. reflexivity. Qed.
Lemma look_count A (x : nd A) n p t : shape x = [n] -> t < n -> look (expand (length p) x) (p ++ [t]) = at_ x [t].
Proof.
  intros E Ht. unfold look. rewrite (shape_count _ _ E). rewrite ix_last, ix_ones by reflexivity. unfold expand, rank. cbn [at_]. rewrite E. cbn [length Nat.sub firstn app]. rewrite last_last. destruct (Nat.eqb_spec n 1); [|reflexivity]. do 2 f_equal. lia.
Qed.
Lemma indices_valid s p : In p (indices s) -> valid p s.
Proof.
  revert p. induction s as [|d s IH]; intros p H; cbn [indices] in H.
  - destruct H as [<-|[]]. constructor.
  - apply in_flat_map in H. destruct H as (i & Hi & H). apply in_map_iff in H. destruct H as (p' & <- & H). apply in_seq in Hi. constructor; [lia|apply IH; exact H].
Qed.
Lemma nth_pos_valid (m : nd bool) q : q < length (positions m) -> valid (nth q (positions m) []) (shape m).
Proof. intros H. apply indices_valid. assert (I := nth_In (positions m) [] H). unfold positions in I at 2. apply filter_In in I. apply I. Qed.
Lemma valid_line p k : valid p [k] -> exists q, p = [q] /\ q < k.
Proof. intros H. inversion H as [|q ? p' ? H1 H2]; subst. inversion H2; subst. exists q. split; [reflexivity|exact H1]. Qed.

(** ** What a pixel sees *)
Definition rowc (A : Type) (x : nd A) : list A := map (fun t => at_ x [t]) (seq 0 (last (shape x) 0)).
Definition pix (K : Fld) (V : Type) (data : ndata K V) (p : list nat) : cdata K V :=
  match data with
  | NCorr d count sq s1 s2 => DCorr (row d p) (rowc count) (option_map (fun x => row x p) sq) (option_map (fun x => row x p) s1) (option_map (fun x => row x p) s2)
  | NDiff d count s1 s2 => DDiff (row d p) (rowc count) (option_map (fun x => row x p) s1) (option_map (fun x => row x p) s2)
  | NBad _ _ => DBad
  end.
Definition stat_at (A : Type) (x : sarr A) (p : list nat) : statarg A :=
  match x with ANone => SNone | APair x y => STwo (at_ x p) (at_ y p) | AOne x => SOne (at_ x p) end.
Definition oshape (A : Type) (x : option (nd A)) (s : list nat) : Prop := match x with None => True | Some x => shape x = s end.
Definition wf (K : Fld) (V : Type) (data : ndata K V) (s : list nat) (n : nat) : Prop :=
  match data with
  | NCorr d count sq s1 s2 => shape d = (s ++ [n])%list /\ shape count = [n] /\ oshape sq (s ++ [n]) /\ oshape s1 (s ++ [n]) /\ oshape s2 (s ++ [n])
  | NDiff d count s1 s2 => shape d = (s ++ [n])%list /\ shape count = [n] /\ oshape s1 (s ++ [n]) /\ oshape s2 (s ++ [n])
  | NBad _ _ => True
  end.
Definition stat_ok (A : Type) (x : sarr A) (s : list nat) : Prop :=
  match x with ANone => True | APair x y => shape x = s /\ shape y = s | AOne x => shape x = s /\ hd 0 s <> 2 end.

Lemma row_length A (x : nd A) s n p : shape x = (s ++ [n])%list -> length (row x p) = n.
Proof. intros E. unfold row. rewrite map_length, seq_length, E, last_last. reflexivity. Qed.
Lemma row_map A (x : nd A) s n p : shape x = (s ++ [n])%list -> row x p = map (fun t => at_ x (p ++ [t])%list) (seq 0 n).
Proof. intros E. unfold row. rewrite E, last_last. reflexivity. Qed.
Lemma row_nth A (x : nd A) s n p t d : shape x = (s ++ [n])%list -> t < n -> nth t (row x p) d = at_ x (p ++ [t])%list.
Proof. intros E H. rewrite (@row_map _ _ _ _ p E). rewrite (nth_indep _ d (at_ x (p ++ [0])%list)) by (rewrite map_length, seq_length; exact H). rewrite (map_nth (fun t => at_ x (p ++ [t])%list)). rewrite seq_nth by exact H. reflexivity. Qed.
Lemma rowc_length A (x : nd A) n : shape x = [n] -> length (rowc x) = n.
Proof. intros E. unfold rowc. rewrite map_length, seq_length, E. reflexivity. Qed.
Lemma rowc_nth A (x : nd A) n t d : shape x = [n] -> t < n -> nth t (rowc x) d = at_ x [t].
Proof. intros E H. unfold rowc. rewrite E. cbn [last]. rewrite (nth_indep _ d (at_ x [0])) by (rewrite map_length, seq_length; exact H). rewrite (map_nth (fun t => at_ x [t])). rewrite seq_nth by exact H. reflexivity. Qed.
Lemma take_first_at A (x : nd A) m : shape x = shape m -> exists y, take_first x (Some m) = Ok y /\ shape y = [length (positions m)] /\ forall q, at_ y [q] = at_ x (nth q (positions m) []).
Proof.
  intros E. unfold take_first, rank. rewrite E, firstn_all. destruct (list_eq_dec Nat.eq_dec (shape m) (shape m)) as [_|N]; [|congruence]. eexists. split; [reflexivity|]. cbn [shape at_ hd tl]. rewrite skipn_all. split; [reflexivity|]. intros q. rewrite app_nil_r. reflexivity.
Qed.
Lemma take_rows_at A (x : nd A) m n : shape x = (shape m ++ [n])%list -> exists y, take_rows x m = Ok y /\ shape y = [length (positions m); n] /\ forall q t, at_ y [q; t] = at_ x (nth q (positions m) [] ++ [t])%list.
Proof.
  intros E. unfold take_rows, rank. rewrite E, app_length. cbn [length]. destruct (Nat.ltb_spec (length (shape m) + 1) (length (shape m) + 1)); [lia|]. replace (length (shape m) + 1 - length (shape m) - 1) with 0 by lia. cbn [skipn firstn].
  replace (firstn (length (shape m)) (shape m ++ [n])) with (shape m) by (rewrite firstn_app, Nat.sub_diag, firstn_all; cbn [firstn]; rewrite app_nil_r; reflexivity). destruct (list_eq_dec Nat.eq_dec (shape m) (shape m)) as [_|N]; [|congruence].
  eexists. split; [reflexivity|]. cbn [shape at_ app nth last]. rewrite last_last. split; [reflexivity|]. intros q t. reflexivity.
Qed.
Arguments row_map {A x s n} p _.
Arguments row_length {A x s n} p _.
Arguments row_nth {A x s n} p {t} d _ _.
Arguments rowc_nth {A x n t} d _ _.
Arguments rowc_length {A x n} _.
Arguments look_new {A x s p} t _ _.
Arguments look_full {A x s n p t} _ _ _.
Arguments shape_count {A x n} k _.
Arguments look_count {A x n} p {t} _ _.
