(** C49-C51: threads.  [F] is the type of multi-frames, None the Python None. *)
From Verif Require Import Base ThreadModel ThreadProofs.
Set Implicit Arguments.

(** No step is possible any more *)
Definition stuck (S : Type) (R : S -> S -> Prop) (s : S) : Prop := forall t, ~ R s t.
(** [n] steps *)
Inductive nsteps (S : Type) (R : S -> S -> Prop) : nat -> S -> S -> Prop :=
| ns_0 s : nsteps R 0 s s
| ns_S n s t u : R s t -> nsteps R n t u -> nsteps R (Datatypes.S n) s u.
Lemma nsteps_steps S (R : S -> S -> Prop) n s t : nsteps R n s t -> steps R s t.
Proof. induction 1; [apply steps_refl|eapply steps_trans; eassumption]. Qed.

(* ------------------------------------------------------------------ *)
(** * C49: threaded *)
(** In whatever order the two threads move: every run is finite, it can only stop when the
    consumer has finished, and then the frames of the video followed by one None have been
    yielded, for every queue size and whether or not the video raises at its end. *)
Theorem C49_frames (F : Type) (frames : list F) failure queue_size n s :
  nsteps (threaded_step queue_size) n (threaded_start (Source (map Some frames) failure)) s ->
  n <= 6 * length frames + 6 /\ (stuck (threaded_step queue_size) s -> t_consumer s = CDone F) /\ (t_consumer s = CDone F -> t_out s = map Some frames ++ [None]) /\
  exists rest, t_out s ++ rest = map Some frames ++ [None].
Proof.
  intros H. set (v := Source (map Some frames) failure) in *. assert (I : t_inv v s) by (eapply t_inv_steps; [apply t_inv_start|eapply nsteps_steps; exact H]). split; [|split; [|split]].
  - assert (X : forall n s s', nsteps (threaded_step (F:=F) queue_size) n s s' -> n + t_size s' <= t_size s). { clear. intros n s s' H. induction H as [|n s t u S1 _ IH]; [lia|]. apply t_size_step in S1. lia. }
    apply X in H. unfold t_size at 2 in H. cbn [threaded_start t_worker t_queue t_consumer w_size elements v length] in H. rewrite map_length in H. lia.
  - intros ST. destruct (t_consumer s) eqn:E; try reflexivity; (destruct (@t_progress F v queue_size s I) as (t & T); [rewrite E; discriminate|destruct (ST t T)]).
  - intros E. rewrite (t_result I E). cbn [elements v]. rewrite before_none_some. reflexivity.
  - destruct I as [I _]. cbn [elements v] in I. eexists. exact I.
Qed.
Print Assumptions C49_frames.
(** A video that itself yields None (such as the output of threaded) ends there. *)
Theorem C49_none_inside (F : Type) (frames : list F) more failure queue_size s :
  steps (threaded_step queue_size) (threaded_start (Source (map Some frames ++ None :: more) failure)) s ->
  (stuck (threaded_step queue_size) s -> t_consumer s = CDone F) /\ (t_consumer s = CDone F -> t_out s = map Some frames ++ [None]).
Proof.
  intros H. set (v := Source (map Some frames ++ None :: more) failure) in *. assert (I : t_inv v s) by (eapply t_inv_steps; [apply t_inv_start|exact H]). split.
  - intros ST. destruct (t_consumer s) eqn:E; try reflexivity; (destruct (@t_progress F v queue_size s I) as (t & T); [rewrite E; discriminate|destruct (ST t T)]).
  - intros E. rewrite (t_result I E). cbn [elements v]. rewrite <- app_assoc. cbn [app]. rewrite before_none_app; [reflexivity|]. intros x Hx. apply in_map_iff in Hx. destruct Hx as (f & <- & _). discriminate.
Qed.
Print Assumptions C49_none_inside.
(** A run with queue size 1 in which the worker has to wait *)
Example C49_holds : exists s, nsteps (threaded_step 1) 15 (threaded_start (Source [Some 5; Some 7] None)) s /\ t_consumer s = CDone nat /\ t_out s = [Some 5; Some 7; None].
Proof.
  eexists. split; [|split].
  - eapply ns_S; [apply ByWorker, WNext|]. eapply ns_S; [apply ByWorker, WPutFrames; reflexivity|]. eapply ns_S; [apply ByWorker, WNext|].
    eapply ns_S; [apply ByConsumer, TGet|]. eapply ns_S; [apply ByWorker, WPutFrames; reflexivity|]. eapply ns_S; [apply ByConsumer, TYield|]. eapply ns_S; [apply ByWorker, WEnd|].
    eapply ns_S; [apply ByConsumer, TAgain|]. eapply ns_S; [apply ByConsumer, TGet|]. eapply ns_S; [apply ByConsumer, TYield|]. eapply ns_S; [apply ByConsumer, TAgain|].
    eapply ns_S; [apply ByWorker, WPutNone; reflexivity|]. eapply ns_S; [apply ByConsumer, TGet|]. eapply ns_S; [apply ByConsumer, TYield|]. eapply ns_S; [apply ByConsumer, TBreak|]. apply ns_0.
  - reflexivity.
  - reflexivity.
Qed.

(* ------------------------------------------------------------------ *)
(** * C50: play_threaded *)
(** With or without fps and for every schedule: whatever has been yielded is the beginning of
    the video, and once the consumer has finished it is the whole video, without a None. *)
Theorem C50_frames (F : Type) (frames : list F) failure fps s : steps (play_threaded_step fps) (play_start fps (Source (map Some frames) failure)) s ->
  (exists rest, p_out s ++ rest = map Some frames) /\ (p_consumer s = PDone F -> p_out s = map Some frames) /\ (stuck (play_threaded_step fps) s -> p_consumer s = PDone F).
Proof.
  intros H. set (v := Source (map Some frames) failure) in *. assert (I : p_inv fps v s) by (eapply p_inv_steps; [apply p_inv_start|exact H]). repeat split.
  - destruct (p_prefix I) as (rest & E). exists rest. rewrite E. apply before_none_some.
  - intros E. rewrite (p_result I E). apply before_none_some.
  - intros ST. destruct (p_consumer s) eqn:E; try reflexivity; (destruct (@p_progress F fps v s I) as (t & T); [rewrite E; discriminate|destruct (ST t T)]).
Qed.
Print Assumptions C50_frames.
(** The trailing None of threaded is removed, and with fps every run is finite. *)
Theorem C50_after_threaded (F : Type) (frames : list F) failure fps s : steps (play_threaded_step fps) (play_start fps (Source (map Some frames ++ [None]) failure)) s ->
  p_consumer s = PDone F -> p_out s = map Some frames.
Proof.
  intros H E. rewrite (@p_result F fps (Source (map Some frames ++ [None]) failure) s); [|eapply p_inv_steps; [apply p_inv_start|exact H]|exact E].
  cbn [elements]. rewrite <- app_assoc. cbn [app]. apply before_none_app. intros x Hx. apply in_map_iff in Hx. destruct Hx as (f & <- & _). discriminate.
Qed.
Print Assumptions C50_after_threaded.
Theorem C50_fps_finite (F : Type) (frames : list F) failure n s : nsteps (play_threaded_step true) n (play_start true (Source (map Some frames) failure)) s -> n <= 7 * length frames + 7.
Proof.
  intros H. set (v := Source (map Some frames) failure) in *.
  assert (X : forall n s s', p_inv true v s -> nsteps (play_threaded_step (F:=F) true) n s s' -> n + p_size s' <= p_size s).
  { clear. intros n s s' I H. induction H as [|n s t u S1 _ IH]; [lia|]. pose proof (p_inv_step I S1) as I'. specialize (IH I'). destruct (p_size_step S1) as [L|[L _]]; [lia|]. destruct I as (_ & _ & I & _). destruct (I eq_refl L). }
  apply X in H; [|apply p_inv_start]. unfold p_size at 2 in H. cbn [play_start p_loop p_worker p_queue p_consumer w_size elements v length pc_size] in H. rewrite map_length in H. lia.
Qed.
Print Assumptions C50_fps_finite.
(** Without fps the consumer polls the queue; if the worker thread is not left out forever the
    consumer finishes after finitely many steps. *)
Theorem C50_terminates (F : Type) (frames : list F) failure fps (s : nat -> ptstate F) : s 0 = play_start fps (Source (map Some frames) failure) -> fair_run fps s ->
  exists n, p_consumer (s n) = PDone F /\ p_out (s n) = map Some frames.
Proof.
  intros H0 HF. destruct (run_ends H0 HF) as (n & E). exists n. split; [exact E|]. rewrite (p_result (run_inv H0 HF n) E). apply before_none_some.
Qed.
Print Assumptions C50_terminates.
(** A video that raises after some frames looks like a shorter one: the states that can be
    reached do not depend on the exception. *)
Theorem C50_truncated (F : Type) (frames : list F) e fps s : steps (play_threaded_step fps) (play_start fps (Source (map Some frames) (Some e))) s ->
  steps (play_threaded_step fps) (play_start fps (Source (map Some frames) None)) s /\ (p_consumer s = PDone F -> p_out s = map Some frames).
Proof. intros H. split; [exact H|]. intros E. eapply C50_frames; [exact H|exact E]. Qed.
Print Assumptions C50_truncated.
Example C50_holds : exists s, steps (play_threaded_step false) (play_start false (Source [Some 5] (Some ValueError))) s /\ p_consumer s = PDone nat /\ p_out s = [Some 5].
Proof.
  eexists. split; [|split].
  - eapply steps_trans; [apply PByConsumer, PEmpty|]. eapply steps_trans; [apply PByWorker, WNext|]. eapply steps_trans; [apply PByConsumer, PShow|]. eapply steps_trans; [apply PByWorker, WPutFrames; reflexivity|].
    eapply steps_trans; [apply PByConsumer, PSome|]. eapply steps_trans; [apply PByConsumer, PTake|]. eapply steps_trans; [apply PByConsumer, PYield|]. eapply steps_trans; [apply PByConsumer, PAgain|].
    eapply steps_trans; [apply PByWorker, WEnd|]. eapply steps_trans; [apply PByWorker, WPutNone; reflexivity|]. eapply steps_trans; [apply PByConsumer, PSome|]. eapply steps_trans; [apply PByConsumer, PTake|].
    eapply steps_trans; [apply PByConsumer, PBreak|]. apply steps_refl.
  - reflexivity.
  - reflexivity.
Qed.

(* ------------------------------------------------------------------ *)
(** * C51: the image queue between two threads *)
Inductive sublist (A : Type) : list A -> list A -> Prop :=
| sub_nil l : sublist [] l
| sub_keep x a l : sublist a l -> sublist (x :: a) (x :: l)
| sub_skip x a l : sublist a l -> sublist a (x :: l).
Lemma sublist_skip_last A (a l : list A) x : sublist a l -> sublist a (l ++ [x]).
Proof. induction 1; cbn [app]; constructor; assumption. Qed.
Lemma sublist_snoc A (a l : list A) x : sublist a l -> sublist (a ++ [x]) (l ++ [x]).
Proof.
  induction 1; cbn [app]; [|apply sub_keep; assumption|apply sub_skip; assumption]. induction l as [|y l IH]; cbn [app]; [apply sub_keep, sub_nil|apply sub_skip; exact IH].
Qed.
Lemma sublist_app A (a l r : list A) : sublist a l -> sublist a (l ++ r).
Proof. induction 1; cbn [app]; constructor; assumption. Qed.
Definition in_hand (I : Type) (p : producer I) : list I := match p with PrPut im _ => [im] | _ => [] end.
Definition to_come (I : Type) (p : producer I) (rest : list I) : Prop := match p with PrTest l => rest = l | PrPut _ l => rest = l | _ => True end.
Definition shown_inv (I : Type) (images : list I) (s : fstate I) : Prop :=
  exists used rest, images = used ++ rest /\ to_come (f_prod s) rest /\ sublist (f_shown s ++ f_queue s ++ in_hand (f_prod s)) used.
Lemma shown_step I (images : list I) s s' : f_inv images s -> shown_inv images s -> figure_step s s' -> shown_inv images s'.
Proof.
  intros FI (used & rest & E & T & S) ST. inversion ST; subst; unfold shown_inv; cbn [f_prod f_shown f_queue to_come in_hand app] in *; subst.
  - exists (used ++ [im]), rest0. repeat split; [rewrite <- app_assoc; reflexivity|]. rewrite app_nil_r in S. apply sublist_snoc. exact S.
  - exists (used ++ [im]), rest0. repeat split; [rewrite <- app_assoc; reflexivity|]. apply sublist_skip_last. exact S.
  - exists used, []. repeat split. exact S.
  - exists used, rest0. repeat split. rewrite app_nil_r. exact S.
  - destruct FI as (_ & _ & F3 & _). specialize (F3 _ _ eq_refl). cbn [f_queue] in F3. subst q. cbn in H. lia.
  - exists used, rest. repeat split; assumption.
  - exists used, rest. repeat split; assumption.
  - exists used, rest. repeat split; try assumption. rewrite <- app_assoc. exact S.
  - exists used, rest. repeat split; assumption.
Qed.
(** One side tests for an empty queue and then fills it, the other tests for a full one and then
    takes the image.  In every interleaving at most one image is queued, put never raises
    queue.Full, get never blocks, and the images shown are some of those offered, in order. *)
Theorem C51_queue (I : Type) (images : list I) s : steps (@figure_step I) (figure_start images) s ->
  length (f_queue s) <= 1 /\ f_prod s <> PrFull I /\ (f_disp s = DGet -> exists im q, f_queue s = im :: q) /\ sublist (f_shown s) images.
Proof.
  intros H. assert (X : f_inv images s /\ shown_inv images s).
  { assert (G : forall s s', steps (@figure_step I) s s' -> f_inv images s /\ shown_inv images s -> f_inv images s' /\ shown_inv images s').
    { clear. intros s s' H. induction H as [|s t u S1 _ IH]; [tauto|]. intros [A B]. apply IH. split; [eapply f_inv_step; eassumption|eapply shown_step; eassumption]. }
    apply (G _ _ H). split; [apply f_inv_start|]. exists [], images. repeat split. apply sub_nil. }
  destruct X as [(A & B & _ & D) (used & rest & E & _ & S)]. repeat split; [exact A|exact B|intros E1; specialize (D E1); destruct (f_queue s) as [|im q]; [destruct (D eq_refl)|exists im, q; reflexivity]|].
  rewrite E. apply sublist_app. clear - S. revert S. generalize (f_queue s ++ in_hand (f_prod s)). generalize (f_shown s). intros a b H. remember (a ++ b) as ab eqn:Eab. revert a Eab. induction H as [l|x c l H IH|x c l H IH]; intros a Eab.
  - symmetry in Eab. apply app_eq_nil in Eab. destruct Eab as [-> _]. apply sub_nil.
  - destruct a as [|y a]; [apply sub_nil|]. cbn [app] in Eab. injection Eab as -> ->. apply sub_keep. apply IH. reflexivity.
  - apply sub_skip. apply IH. exact Eab.
Qed.
Print Assumptions C51_queue.
Example C51_queue_holds : exists s, steps (@figure_step nat) (figure_start [1; 2; 3]) s /\ f_prod s = PrEnd nat /\ f_shown s = [1; 3].
Proof.
  eexists. split; [|split].
  - eapply steps_trans; [apply FEmpty|]. eapply steps_trans; [apply DNone|]. eapply steps_trans; [apply FPut; cbn; lia|]. eapply steps_trans; [apply DSome|]. eapply steps_trans; [apply FSkip|]. eapply steps_trans; [apply DTake|].
    eapply steps_trans; [apply FEmpty|]. eapply steps_trans; [apply FPut; cbn; lia|]. eapply steps_trans; [apply FStop|]. eapply steps_trans; [apply DSome|]. eapply steps_trans; [apply DTake|]. apply steps_refl.
  - reflexivity.
  - reflexivity.
Qed.
