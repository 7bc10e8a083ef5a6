(** Invariants of the transition systems of ThreadModel.v. *)
From Verif Require Import Base ThreadModel.
Set Implicit Arguments.

Section Proofs.
  Variable F : Type.
  Local Notation item := (option F).
  Definition all_some (l : list item) : Prop := forall x, In x l -> x <> None.
  Lemma all_some_snoc l f : all_some l -> all_some (l ++ [Some f]).
  Proof. intros H x Hx. apply in_app_or in Hx. destruct Hx as [Hx|[<-|[]]]; [apply H; exact Hx|discriminate]. Qed.
  (** The elements before the first None *)
  Fixpoint before_none (l : list item) : list item := match l with Some f :: l => Some f :: before_none l | _ => [] end.
  Lemma before_none_app a b : all_some a -> before_none (a ++ None :: b) = a.
  Proof.
    induction a as [|[f|] a IH]; intros H; [reflexivity| |destruct (H None (or_introl eq_refl) eq_refl)]. cbn [app before_none]. rewrite IH; [reflexivity|]. intros x Hx. apply H. right. exact Hx.
  Qed.
  Lemma before_none_some (l : list F) : before_none (map Some l ++ [None]) = map Some l.
  Proof. induction l as [|f l IH]; [reflexivity|]. cbn [map app before_none]. rewrite IH. reflexivity. Qed.
  (** What the worker has still to put into the queue *)
  Definition pending (w : wstate F) : list item :=
    match w with WFor r => r ++ [None] | WPut f r => f :: r ++ [None] | WFinally _ => [None] | WDone _ => [] end.
  Lemma worker_keeps size w q w' q' : worker_step size (w, q) (w', q') -> q' ++ pending w' = q ++ pending w.
  Proof. intros H. inversion H; subst; cbn [pending app]; rewrite <- ?app_assoc; reflexivity. Qed.
  (** With an empty queue the worker can move unless it is done. *)
  Lemma worker_moves size w : w <> WDone F -> exists w' q', worker_step size (w, []) (w', q').
  Proof.
    assert (C : can_put size (@nil item) = true). { unfold can_put. cbn [length]. destruct (Z.leb_spec size 0); [reflexivity|]. cbn [orb]. apply Z.ltb_lt. lia. }
    intros H. destruct w as [[|f r]|f r| |].
    - eexists _, _. apply WEnd.
    - eexists _, _. apply WNext.
    - eexists _, _. apply WPutFrames. exact C.
    - eexists _, _. apply WPutNone. exact C.
    - destruct (H eq_refl).
  Qed.
  (** Without a size limit it can always move unless it is done. *)
  Lemma worker_moves_0 w q : w <> WDone F -> exists w' q', worker_step 0 (w, q) (w', q').
  Proof.
    intros H. destruct w as [[|f r]|f r| |].
    - eexists _, _. apply WEnd.
    - eexists _, _. apply WNext.
    - eexists _, _. apply WPutFrames. reflexivity.
    - eexists _, _. apply WPutNone. reflexivity.
    - destruct (H eq_refl).
  Qed.

  (** ** threaded *)
  Definition t_held (c : cstate F) : list item := match c with CYield x => [x] | _ => [] end.
  Definition t_inv (v : source F) (s : tstate F) : Prop :=
    t_out s ++ t_held (t_consumer s) ++ t_queue s ++ pending (t_worker s) = elements v ++ [None] /\
    match t_consumer s with
    | CGet _ | CYield _ => all_some (t_out s)
    | CTest x => exists o, t_out s = o ++ [x] /\ all_some o
    | CDone _ => exists o, t_out s = o ++ [None] /\ all_some o
    end.
  Lemma t_inv_start v : t_inv v (threaded_start v).
  Proof. split; [reflexivity|]. intros x []. Qed.
  Lemma t_inv_step v size s s' : t_inv v s -> threaded_step size s s' -> t_inv v s'.
  Proof.
    intros [H1 H2] ST. inversion ST as [w w' c q q' ys W|w c c' q q' ys ys' C]; subst; cbn [t_out t_held t_consumer t_queue t_worker] in *.
    - apply worker_keeps in W. unfold t_inv. cbn [t_out t_held t_consumer t_queue t_worker]. rewrite W. split; assumption.
    - inversion C; subst; unfold t_inv; cbn [t_out t_held t_consumer t_queue t_worker app] in *.
      + split; assumption.
      + split; [rewrite <- app_assoc; exact H1|]. exists ys. split; [reflexivity|exact H2].
      + split; assumption.
      + split; [exact H1|]. destruct H2 as (o & -> & Ho). apply all_some_snoc. exact Ho.
  Qed.
  Lemma t_inv_steps v size s s' : t_inv v s -> steps (threaded_step (F:=F) size) s s' -> t_inv v s'.
  Proof. intros H ST. induction ST as [|s t u S1 S2 IH]; [exact H|]. apply IH. eapply t_inv_step; eassumption. Qed.
  (** Bound on the number of steps *)
  Definition w_size (a : nat) (w : wstate F) : nat := match w with WFor r => a * length r + a | WPut _ r => a * length r + a + (a - 1) | WFinally _ => a - 1 | WDone _ => 0 end.
  Lemma worker_size a size w q w' q' : 2 <= a -> worker_step size (w, q) (w', q') -> w_size a w' + (a - 2) * length q' < w_size a w + (a - 2) * length q.
  Proof.
    intros Ha H. inversion H; subst; cbn [w_size]; rewrite ?app_length; cbn [length]; try nia.
  Qed.
  Definition t_size (s : tstate F) : nat :=
    w_size 6 (t_worker s) + 4 * length (t_queue s) + match t_consumer s with CGet _ => 0 | CYield _ => 3 | CTest _ => 2 | CDone _ => 0 end.
  Lemma t_size_step size s s' : threaded_step size s s' -> t_size s' < t_size s.
  Proof.
    intros ST. inversion ST as [w w' c q q' ys W|w c c' q q' ys ys' C]; subst; unfold t_size; cbn [t_out t_consumer t_queue t_worker].
    - apply (@worker_size 6) in W; [|lia]. cbn [Nat.sub] in W. lia.
    - inversion C; subst; cbn [length]; lia.
  Qed.
  Lemma t_progress v size s : t_inv v s -> t_consumer s <> CDone F -> exists s', threaded_step size s s'.
  Proof.
    intros [H1 H2] Hd. destruct s as [w c q ys]. cbn [t_out t_held t_consumer t_queue t_worker] in *. destruct c as [|x|x|].
    - destruct q as [|x q]; [|eexists; apply ByConsumer, TGet]. assert (Hw : w <> WDone F).
      { intros ->. cbn [pending t_held app] in H1. rewrite app_nil_r in H1. apply (H2 None); [rewrite H1; apply in_or_app; right; left|]; reflexivity. }
      destruct (worker_moves size Hw) as (w' & q' & W). eexists. apply ByWorker. exact W.
    - eexists. apply ByConsumer, TYield.
    - destruct x; eexists; apply ByConsumer; [apply TAgain|apply TBreak].
    - destruct (Hd eq_refl).
  Qed.
  Lemma t_result v s : t_inv v s -> t_consumer s = CDone F -> t_out s = before_none (elements v ++ [None]) ++ [None].
  Proof.
    intros [H1 H2] E. rewrite E in *. destruct H2 as (o & Eo & Ho). rewrite Eo in *. rewrite <- H1. cbn [t_held app]. rewrite <- app_assoc. cbn [app]. rewrite before_none_app by exact Ho. reflexivity.
  Qed.

  (** ** play_threaded *)
  Definition p_held (c : pstate F) : list item := match c with PGot x => [x] | PDone _ => [None] | _ => [] end.
  Definition p_inv (fps : bool) (v : source F) (s : ptstate F) : Prop :=
    p_out s ++ p_held (p_consumer s) ++ p_queue s ++ pending (p_worker s) = elements v ++ [None] /\ all_some (p_out s) /\
    (fps = true -> p_consumer s <> PCheck F) /\ (fps = false -> p_consumer s = PGet F -> p_queue s <> []).
  Lemma p_inv_start fps v : p_inv fps v (play_start fps v).
  Proof.
    split; [destruct fps; reflexivity|split; [intros x []|split]]; unfold play_start; cbn [p_consumer p_queue].
    - intros -> E. discriminate.
    - intros -> E. discriminate.
  Qed.
  Lemma worker_grows size w q w' q' : worker_step size (w, q) (w', q') -> q <> [] -> q' <> ([] : list item).
  Proof. intros H. inversion H; subst; intros Hq; try exact Hq; intros E; apply app_eq_nil in E; destruct E; contradiction. Qed.
  Lemma p_inv_step fps v s s' : p_inv fps v s -> play_threaded_step fps s s' -> p_inv fps v s'.
  Proof.
    intros (H1 & H2 & H3 & H4) ST. inversion ST as [w w' c q q' ys W|w c c' q q' ys ys' C]; subst; cbn [p_out p_held p_consumer p_queue p_worker] in *.
    - pose proof (worker_grows W) as G. apply worker_keeps in W. unfold p_inv. cbn [p_out p_held p_consumer p_queue p_worker]. rewrite W. repeat split; try assumption. intros E1 E2. apply G. apply H4; assumption.
    - destruct fps; inversion C; subst; try discriminate; unfold p_inv; cbn [p_out p_held p_consumer p_queue p_worker p_loop app] in *;
        (split; [rewrite <- ?app_assoc; exact H1|split; [try apply all_some_snoc; exact H2|split; intros; discriminate]]).
  Qed.
  Lemma p_inv_steps fps v s s' : p_inv fps v s -> steps (play_threaded_step (F:=F) fps) s s' -> p_inv fps v s'.
  Proof. intros H ST. induction ST as [|s t u S1 S2 IH]; [exact H|]. apply IH. eapply p_inv_step; eassumption. Qed.
  Definition pc_size (c : pstate F) : nat := match c with PDisplay _ => 2 | PCheck _ => 1 | PGet _ => 0 | PGot _ => 4 | PYielded _ => 3 | PDone _ => 0 end.
  Definition p_size (s : ptstate F) : nat := w_size 7 (p_worker s) + 5 * length (p_queue s) + pc_size (p_consumer s).
  (** Every step makes the state smaller, except looking at an empty queue. *)
  Lemma p_size_step fps s s' : play_threaded_step fps s s' -> p_size s' < p_size s \/ (p_consumer s = PCheck F /\ p_queue s = []).
  Proof.
    intros ST. inversion ST as [w w' c q q' ys W|w c c' q q' ys ys' C]; subst; unfold p_size; cbn [p_out p_consumer p_queue p_worker].
    - left. apply (@worker_size 7) in W; [|lia]. cbn [Nat.sub] in W. lia.
    - inversion C; subst; cbn [length pc_size]; try (left; lia); try (left; destruct fps; cbn; lia). right. split; reflexivity.
  Qed.
  Lemma p_progress fps v s : p_inv fps v s -> p_consumer s <> PDone F -> exists s', play_threaded_step fps s s'.
  Proof.
    intros (H1 & H2 & H3 & H4) Hd. destruct s as [w c q ys]. cbn [p_out p_held p_consumer p_queue p_worker] in *. destruct c as [| |x| | |].
    - destruct q; eexists; apply PByConsumer; [apply PEmpty|apply PSome].
    - destruct q as [|x q]; [|eexists; apply PByConsumer, PTake]. assert (Hw : w <> WDone F).
      { intros ->. cbn [pending p_held app] in H1. rewrite app_nil_r in H1. apply (H2 None); [rewrite H1; apply in_or_app; right; left|]; reflexivity. }
      destruct (worker_moves_0 [] Hw) as (w' & q' & W). eexists. apply PByWorker. exact W.
    - destruct x; eexists; apply PByConsumer; [apply PYield|apply PBreak].
    - eexists. apply PByConsumer, PAgain.
    - eexists. apply PByConsumer, PShow.
    - destruct (Hd eq_refl).
  Qed.
  Lemma p_result fps v s : p_inv fps v s -> p_consumer s = PDone F -> p_out s = before_none (elements v ++ [None]).
  Proof. intros (H1 & H2 & _) E. rewrite E in H1. rewrite <- H1. cbn [p_held app]. rewrite before_none_app by exact H2. reflexivity. Qed.
  Lemma p_prefix fps v s : p_inv fps v s -> exists rest, p_out s ++ rest = before_none (elements v ++ [None]).
  Proof.
    intros (H1 & H2 & _). rewrite <- H1. revert H2. generalize (p_held (p_consumer s) ++ p_queue s ++ pending (p_worker s)). generalize (p_out s). intros a b Ha.
    exists (before_none b). induction a as [|[f|] a IH]; [reflexivity| |destruct (Ha None (or_introl eq_refl) eq_refl)]. cbn [app before_none]. f_equal. apply IH. intros x Hx. apply Ha. right. exact Hx.
  Qed.
  (** Runs that go on forever, in which the worker is not left out as long as it can move *)
  Definition fair_run (fps : bool) (s : nat -> ptstate F) : Prop :=
    (forall i, play_threaded_step fps (s i) (s (S i)) \/ (s (S i) = s i /\ forall t, ~ play_threaded_step fps (s i) t)) /\
    (forall i, exists j, i <= j /\ (p_worker (s j) = WDone F \/ p_worker (s (S j)) <> p_worker (s j))).
  Lemma run_inv fps v s : s 0 = play_start fps v -> fair_run fps s -> forall i, p_inv fps v (s i).
  Proof.
    intros H0 [HS _]. induction i as [|i IH]; [rewrite H0; apply p_inv_start|]. destruct (HS i) as [E|[E _]]; [eapply p_inv_step; eassumption|rewrite E; exact IH].
  Qed.
  Lemma worker_mono fps s : fair_run fps s -> forall i, w_size 7 (p_worker (s (S i))) <= w_size 7 (p_worker (s i)) /\ (p_worker (s (S i)) <> p_worker (s i) -> w_size 7 (p_worker (s (S i))) < w_size 7 (p_worker (s i))).
  Proof.
    intros [HS _] i. destruct (HS i) as [E|[E _]]; [|rewrite E; split; [lia|intros X; destruct (X eq_refl)]].
    inversion E as [w w' c q q' ys W|w c c' q q' ys ys' C]; cbn [p_worker]; [|split; [lia|intros X; destruct (X eq_refl)]].
    inversion W; subst; cbn [w_size length]; split; intros; lia.
  Qed.
  Lemma worker_ends fps s : fair_run fps s -> exists j, p_worker (s j) = WDone F.
  Proof.
    intros HF. pose proof (worker_mono HF) as HM. destruct HF as [HS HW].
    assert (MM : forall i d, w_size 7 (p_worker (s (i + d))) <= w_size 7 (p_worker (s i))).
    { intros i. induction d as [|d IH]; [rewrite Nat.add_0_r; lia|]. rewrite Nat.add_succ_r. destruct (HM (i + d)). lia. }
    assert (X : forall n i, w_size 7 (p_worker (s i)) < n -> exists j, p_worker (s j) = WDone F).
    { induction n as [|n IH]; intros i Hi; [lia|]. destruct (HW i) as (j & Hj & [E|E]); [exists j; exact E|]. destruct (HM j) as [_ D]. specialize (D E). apply (IH (S j)).
      pose proof (MM i (j - i)) as L. replace (i + (j - i)) with j in L by lia. lia. }
    apply (X (S (w_size 7 (p_worker (s 0)))) 0). lia.
  Qed.
  Lemma run_ends fps v s : s 0 = play_start fps v -> fair_run fps s -> exists n, p_consumer (s n) = PDone F.
  Proof.
    intros H0 HF. pose proof (run_inv H0 HF) as HI. destruct (worker_ends HF) as (j & Hj).
    assert (X : forall m i, p_worker (s i) = WDone F -> p_size (s i) < m -> exists n, p_consumer (s n) = PDone F).
    { induction m as [|m IH]; intros i Hw Hi; [lia|]. assert (D : p_consumer (s i) = PDone F \/ p_consumer (s i) <> PDone F) by (destruct (p_consumer (s i)); try (left; reflexivity); right; discriminate).
      destruct D as [D|D]; [exists i; exact D|]. destruct HF as [HS HW]. destruct (HS i) as [E|[_ E]].
      - apply (IH (S i)).
        + inversion E as [w w' c q q' ys W E1 E2|w c c' q q' ys ys' C E1 E2]; rewrite <- E1 in Hw; cbn [p_worker] in *; [subst w; inversion W|exact Hw].
        + destruct (p_size_step E) as [L|[L1 L2]]; [lia|]. exfalso. destruct (HI i) as (H1 & H2 & _). rewrite L1, L2, Hw in H1. cbn [p_held pending app] in H1. rewrite app_nil_r in H1.
          apply (H2 None); [rewrite H1; apply in_or_app; right; left|]; reflexivity.
      - destruct (p_progress (HI i) D) as (t & T). destruct (E t T). }
    apply (X (S (p_size (s j))) j Hj). lia.
  Qed.

  (** ** Figures *)
  Variable I : Type.
  Definition f_inv (images : list I) (s : fstate I) : Prop :=
    length (f_queue s) <= 1 /\ f_prod s <> PrFull I /\ (forall im rest, f_prod s = PrPut im rest -> f_queue s = []) /\ (f_disp s = DGet -> f_queue s <> []).
  Lemma f_inv_start images : f_inv images (figure_start images).
  Proof. repeat split; cbn; try lia; discriminate. Qed.
  Lemma f_inv_step images s s' : f_inv images s -> figure_step s s' -> f_inv images s'.
  Proof.
    intros (H1 & H2 & H3 & H4) ST. unfold f_inv. inversion ST; subst; cbn [f_queue f_prod f_disp length] in *; rewrite ?app_length; cbn [length];
      (split; [first [exact H1|lia]|split; [first [exact H2|discriminate|exfalso; rewrite (H3 im rest eq_refl) in *; cbn [length] in *; lia]|split;
        [first [exact H3|intros; reflexivity|intros im' rest' E; first [discriminate|specialize (H3 _ _ E); discriminate]]|first [exact H4|intros; discriminate|intros E X; apply app_eq_nil in X; destruct X; discriminate]]]]).
  Qed.
End Proofs.
