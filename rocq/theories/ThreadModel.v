(** Background threads of video.py: threaded (567-600) and play_threaded (481-565).
    The worker and the consumer are two threads; a step of the transition systems below is one
    step of either.  A Queue is a list with a size limit; put blocks while the queue is full
    and get while it is empty.  The elements of the video have the type [option F], None being
    the Python None. *)
From Verif Require Import Base.
Set Implicit Arguments.

Section Threads.
  Variable F : Type.
  Local Notation item := (option F).
  (** A video: the elements it yields and the exception with which it ends, if any *)
  Record source : Type := Source { elements : list item; failure : option pyexc }.

  (** The worker, video.py 585-590 and 521-526 *)
  Inductive wstate : Type :=
  | WFor (rest : list item)               (* about to ask the video for the next frames *)
  | WPut (frames : item) (rest : list item) (* in q.put(frames) *)
  | WFinally                              (* in q.put(None); reached with or without exception *)
  | WDone.
  (** q.put may proceed: maxsize <= 0 means no limit *)
  Definition can_put (maxsize : Z) (q : list item) : bool := ((maxsize <=? 0) || (Z.of_nat (length q) <? maxsize))%bool%Z.
  Inductive worker_step (maxsize : Z) : wstate * list item -> wstate * list item -> Prop :=
  | WNext f rest q : worker_step maxsize (WFor (f :: rest), q) (WPut f rest, q)
  | WEnd q : worker_step maxsize (WFor [], q) (WFinally, q)
  | WPutFrames f rest q : can_put maxsize q = true -> worker_step maxsize (WPut f rest, q) (WFor rest, q ++ [f])
  | WPutNone q : can_put maxsize q = true -> worker_step maxsize (WFinally, q) (WDone, q ++ [None]).

  (** The consumer of threaded, video.py 592-599 *)
  Inductive cstate : Type :=
  | CGet                    (* in q.get() *)
  | CYield (out : item)     (* after q.task_done(), about to yield out *)
  | CTest (out : item)      (* if out is None: break *)
  | CDone.
  Inductive consumer_step : cstate * list item * list item -> cstate * list item * list item -> Prop :=
  | TGet x q ys : consumer_step (CGet, x :: q, ys) (CYield x, q, ys)
  | TYield x q ys : consumer_step (CYield x, q, ys) (CTest x, q, ys ++ [x])
  | TBreak q ys : consumer_step (CTest None, q, ys) (CDone, q, ys)
  | TAgain f q ys : consumer_step (CTest (Some f), q, ys) (CGet, q, ys).

  (** A state of threaded: worker, consumer, queue, what has been yielded *)
  Record tstate : Type := TState { t_worker : wstate; t_consumer : cstate; t_queue : list item; t_out : list item }.
  Definition threaded_start (v : source) : tstate := TState (WFor (elements v)) CGet [] [].
  Inductive threaded_step (queue_size : Z) : tstate -> tstate -> Prop :=
  | ByWorker w w' c q q' ys : worker_step queue_size (w, q) (w', q') -> threaded_step queue_size (TState w c q ys) (TState w' c q' ys)
  | ByConsumer w c c' q q' ys ys' : consumer_step (c, q, ys) (c', q', ys') -> threaded_step queue_size (TState w c q ys) (TState w c' q' ys').

  (** The consumer of play_threaded, video.py 525-563.  [fps] tells whether a frame rate is
      given; the comparison of clock readings (551) may have any outcome.  Displaying the
      figures and pause() (556-561) is one step that leaves the frames alone. *)
  Inductive pstate : Type :=
  | PCheck                  (* while not q.empty() (531); without fps *)
  | PGet                    (* in q.get() *)
  | PGot (out : item)       (* if out is None *)
  | PYielded                (* after the yield; next iteration or clock test *)
  | PDisplay                (* after the inner loop with out not None *)
  | PDone.
  Definition p_loop (fps : bool) : pstate := if fps then PGet else PCheck.
  Inductive play_step (fps : bool) : pstate * list item * list item -> pstate * list item * list item -> Prop :=
  | PSome x q ys : play_step fps (PCheck, x :: q, ys) (PGet, x :: q, ys)
  | PEmpty ys : play_step fps (PCheck, [], ys) (PDisplay, [], ys)
  | PTake x q ys : play_step fps (PGet, x :: q, ys) (PGot x, q, ys)
  | PBreak q ys : play_step fps (PGot None, q, ys) (PDone, q, ys)
  | PYield f q ys : play_step fps (PGot (Some f), q, ys) (PYielded, q, ys ++ [Some f])
  | PAgain q ys : play_step fps (PYielded, q, ys) (p_loop fps, q, ys)
  | PLate q ys : fps = true -> play_step fps (PYielded, q, ys) (PDisplay, q, ys)
  | PShow q ys : play_step fps (PDisplay, q, ys) (p_loop fps, q, ys).
  Record ptstate : Type := PTState { p_worker : wstate; p_consumer : pstate; p_queue : list item; p_out : list item }.
  Definition play_start (fps : bool) (v : source) : ptstate := PTState (WFor (elements v)) (p_loop fps) [] [].
  Inductive play_threaded_step (fps : bool) : ptstate -> ptstate -> Prop :=
  | PByWorker w w' c q q' ys : worker_step 0 (w, q) (w', q') -> play_threaded_step fps (PTState w c q ys) (PTState w' c q' ys)
  | PByConsumer w c c' q q' ys ys' : play_step fps (c, q, ys) (c', q', ys') -> play_threaded_step fps (PTState w c q ys) (PTState w c' q' ys').
End Threads.

(** Any number of steps *)
Inductive steps (S : Type) (R : S -> S -> Prop) : S -> S -> Prop :=
| steps_refl s : steps R s s
| steps_trans s t u : R s t -> steps R t u -> steps R s u.

(** The image queue of one figure: show_video and show_diff fill it (video.py 695-698, 721-730)
    while play or play_threaded empties it (469-474, 556-560), possibly from another thread.
    Each side first tests and then acts; [Queue(1)]. *)
Section Figure.
  Variable I : Type.
  Inductive producer : Type := PrTest (images : list I) | PrPut (im : I) (rest : list I) | PrFull (* queue.Full *) | PrEnd.
  Inductive display : Type := DTest | DGet | DGone.
  Record fstate : Type := FState { f_prod : producer; f_disp : display; f_queue : list I; f_shown : list I }.
  Inductive figure_step : fstate -> fstate -> Prop :=
  | FEmpty im rest d s : figure_step (FState (PrTest (im :: rest)) d [] s) (FState (PrPut im rest) d [] s)
  | FSkip im rest d x q s : figure_step (FState (PrTest (im :: rest)) d (x :: q) s) (FState (PrTest rest) d (x :: q) s)
  | FStop d q s : figure_step (FState (PrTest []) d q s) (FState PrEnd d q s)
  | FPut im rest d q s : length q < 1 -> figure_step (FState (PrPut im rest) d q s) (FState (PrTest rest) d (q ++ [im]) s)
  | FFull im rest d q s : 1 <= length q -> figure_step (FState (PrPut im rest) d q s) (FState PrFull d q s)
  | DSome p x q s : figure_step (FState p DTest (x :: q) s) (FState p DGet (x :: q) s)
  | DNone p s : figure_step (FState p DTest [] s) (FState p DTest [] s)
  | DTake p x q s : figure_step (FState p DGet (x :: q) s) (FState p DTest q (s ++ [x]))
  | DLeave p q s : figure_step (FState p DTest q s) (FState p DGone q s).
  Definition figure_start (images : list I) : fstate := FState (PrTest images) DTest [] [].
End Figure.
