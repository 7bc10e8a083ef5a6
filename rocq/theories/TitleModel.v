(** Model of the titles of the figures: figure_title and the beginnings of show_video, show_fft and show_diff (cddm/video.py 602-605, 659-662, 688-693, 732-737), and the end of play (478). *)
From Coq Require Import String Decimal DecimalString DecimalNat DecimalZ.
From Verif Require Import Base.
Set Implicit Arguments.
Local Open Scope nat_scope.

(** "{}".format(i) of a natural number and of an integer *)
Definition dec (i : nat) : string := NilZero.string_of_uint (Nat.to_uint i).
Definition decz (i : Z) : string := NilZero.string_of_int (Z.to_int i).

(** _FIGURES, video.py 420: titles with their viewers (numbers stand for the viewers with their queues), in the order of the dictionary *)
Definition figures : Type := list (string * nat).

(** _FIGURES[title] = viewer *)
Fixpoint set_figure (figs : figures) (title : string) (viewer : nat) : figures :=
  match figs with
  | [] => [(title, viewer)]
  | (t, v) :: rest => if string_dec t title then (t, viewer) :: rest else (t, v) :: set_figure rest title viewer
  end.

(** _FIGURES.get(title) *)
Fixpoint get_figure (figs : figures) (title : string) : option nat :=
  match figs with [] => None | (t, v) :: rest => if string_dec t title then Some v else get_figure rest title end.

(** "Fig.{}: {}".format(i, name), video.py 605 *)
Definition fig_name (i : nat) (name : string) : string := ("Fig." ++ dec i ++ ": " ++ name)%string.

(** figure_title, video.py 602-605 *)
Definition figure_title (figs : figures) (name : string) : string := fig_name (length figs + 1) name.

(** The calls of show_video, show_fft and show_diff, with the title of the user *)
Inductive show : Type := ShowVideo (id : Z) (title : option string) | ShowFft (id : Z) (title : option string) | ShowDiff (title : option string).

(** What is left to do when the video is asked for its first frame: show_video and show_diff are generators, nothing was done before; show_fft (659-662) is none, it has chosen its title already and gives it to show_video *)
Inductive started : Type := With (title : string) | Choose (name : string).
Definition call (figs : figures) (s : show) : started :=
  match s with
  | ShowVideo id None => Choose ("video - camera " ++ decz id)
  | ShowDiff None => Choose "difference video"
  | ShowFft id None => With (figure_title figs ("fft - camera " ++ decz id))
  | ShowVideo _ (Some t) | ShowFft _ (Some t) | ShowDiff (Some t) => With t
  end.

(** The beginning of the generators, video.py 688-693 and 732-737; [viewer] is the new ImageShow *)
Definition start (figs : figures) (s : started) (viewer : nat) : figures :=
  set_figure figs (match s with With t => t | Choose name => figure_title figs name end) viewer.
Definition title_of (figs : figures) (s : started) : string := match s with With t => t | Choose name => figure_title figs name end.

(** The first frame is asked for: the generators begin one after the other, the outermost one first *)
Fixpoint start_all (figs : figures) (l : list started) (viewer : nat) : figures :=
  match l with [] => figs | s :: l => start_all (start figs s viewer) l (S viewer) end.

(** video = show_1(video); ...; video = show_n(video), and the first frame *)
Definition first_frame (figs : figures) (shows : list show) : figures := start_all figs (rev (map (call figs) shows)) 0.

(** play, video.py 478: _FIGURES.clear() after the last frame *)
Definition played (figs : figures) : figures := [].
