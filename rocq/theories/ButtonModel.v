(** Model of the buttons of VideoViewer, cddm/viewer.py 61-176: the slider and the frames that are asked for. *)
From Verif Require Import Base.
Open Scope Z_scope.
Open Scope list_scope.
Set Implicit Arguments.

(** The value of the slider and the step in hundredths of a frame (step_fast = count / 100, line 106), whether it is playing, and the
    arguments int(val) of the calls of update.  Slider.set_val of matplotlib stores the value as it is (it is rounded to valstep only
    for the mouse). *)
Record player := Player { val : Z; step : Z; playing : bool; shown : list Z }.
(** viewer.py 85, 108-110 *)
Definition player_start : player := Player 0 100 false [].
(** self.sframe.set_val: update is called with int(val), line 150 *)
Definition set_val (v : Z) (s : player) : player := Player v (step s) (playing s) (shown s ++ [Z.quot v 100]).
Definition set_playing (b : bool) (s : player) : player := Player (val s) (step s) b (shown s).
Definition set_step (x : Z) (s : player) : player := Player (val s) x (playing s) (shown s).

(** What the user clicks; with a button that starts playing come the clicks during each of its pauses, plt.pause *)
Inductive click := Next | NextFast | Prev | PrevFast | Stop | Play (pauses : list (list click)) | FastForward (pauses : list (list click)).

Section Buttons.
  Variable count : Z.
  (** The body of the loop after the pause, viewer.py 115-119 *)
  Definition advance (s : player) : player :=
    let next_frame := val s + step s in
    if next_frame >=? 100 * count then set_playing false s else set_val next_frame s.
  (** The loop without further clicks, viewer.py 112-119; [fuel] bounds the number of rounds *)
  Fixpoint coast (fuel : nat) (s : player) : player :=
    match fuel with O => s | S fuel => if playing s then coast fuel (advance s) else s end.
  Definition rounds (s : player) : nat := S (Z.to_nat (100 * count - val s)).
  (** _play, viewer.py 112-119, and the handlers 121-146 *)
  Fixpoint clicked (c : click) (s : player) : player :=
    let fix pause (p : list click) (s : player) : player := match p with [] => s | c :: p => pause p (clicked c s) end in
    let fix loop (ps : list (list click)) (s : player) : player :=
      if playing s then match ps with [] => coast (rounds s) s | p :: ps => loop ps (advance (pause p s)) end else s in
    match c with
    | Next => set_val (Z.min (val s + 100) (100 * (count - 1))) s
    | NextFast => set_val (Z.min (val s + step s) (100 * (count - 1))) s
    | Prev => set_val (Z.max (val s - 100) 0) s
    | PrevFast => set_val (Z.max (val s - step s) 0) s
    | Stop => set_playing false s
    | Play ps => loop ps (set_step 100 (set_playing true s))
    | FastForward ps => loop ps (set_step count (set_playing true s))
    end.
  Definition session (l : list click) (s : player) : player := fold_left (fun s c => clicked c s) l s.
End Buttons.
