(** Progress bars and frame rates: print_tools.py 21-41, the places that print them (video.py 69-94,
    116-144; multitau.py 221-298) and what a message can do to the result.

    Simplifications: what is printed is the list of the arguments of print(), each with its end; Python's
    formatting of a float with a given number of digits is a parameter ([percent], [rate]: they get the exact
    number); a length and a count are integers, as everywhere in the package. *)
From Coq Require Import String Ascii ZArith.
From Verif Require Import Base ConfModel VideoModel.
Open Scope string_scope.
Open Scope nat_scope.
Open Scope list_scope.
Local Notation length := List.length.
Set Implicit Arguments.

(** A function that prints: the messages so far, and the result *)
Definition talk (A : Type) : Type := (list string * res A)%type.
Definition say_nothing {A} (r : res A) : talk A := ([], r).
Definition talk_bind {A B} (x : talk A) (f : A -> talk B) : talk B :=
  match snd x with
  | Ok a => let y := f a in (fst x ++ fst y, snd y)
  | Raise e => (fst x, Raise e)
  end.

(** The character number 13, "\r" *)
Definition CR : string := String (ascii_of_nat 13) EmptyString.
Definition LF : string := String (ascii_of_nat 10) EmptyString.
(** s * n for strings: empty for n <= 0 *)
Fixpoint times_str (s : string) (n : nat) : string := match n with O => "" | S n => (s ++ times_str s n)%string end.
Definition str_times (s : string) (n : Z) : string := times_str s (Z.to_nat n).

Section Printing.
  (** ("{0:." + str(decimals) + "f}").format(100 * (iteration / float(total))) *)
  Variable percent : Z -> Z -> Z -> string.

  (** The bar, print_tools.py 27-28 *)
  Definition bar (iteration total len : Z) (fill : string) : string :=
    let filledLength := (len * iteration / total)%Z in
    (str_times fill filledLength ++ str_times "-" (len - filledLength))%string.

  (** print_progress, print_tools.py 21-34 *)
  Definition print_progress (verbose iteration total : Z) (prefix suffix : string) (decimals len : Z) (fill : string) : talk unit :=
    if (1 <=? verbose)%Z then
      if (total =? 0)%Z then say_nothing (Raise ZeroDivisionError) else
      let line := (CR ++ prefix ++ " |" ++ bar iteration total len fill ++ "| " ++ percent decimals iteration total ++ "% " ++ suffix ++ CR)%string in
      ((if (iteration =? total)%Z then [line; LF] else [line]), Ok tt)
    else say_nothing (Ok tt).
  (** with the default arguments *)
  Definition progress (verbose iteration total : Z) : talk unit := print_progress verbose iteration total "" "" 1 50 "=".

  (** "{0} frames with an average frame rate {1:.2f}".format(n_frames, n_frames/(t1-t0)); times are any numbers
      that can be compared and subtracted, here integers (ticks of the clock) *)
  Variable rate : Z -> Z -> string.
  (** print_frame_rate, print_tools.py 36-41; [now] is time.time() *)
  Definition print_frame_rate (verbose n_frames t0 : Z) (t1 : option Z) (now : Z) (message : string) : talk unit :=
    if (2 <=? verbose)%Z then
      let t1 := match t1 with Some t1 => t1 | None => now end in
      if (t1 - t0 =? 0)%Z then say_nothing (Raise ZeroDivisionError) else
      ([(message ++ rate n_frames (t1 - t0) ++ LF)%string], Ok tt)
    else say_nothing (Ok tt).

  Section Loading.
    Variable F : Type.
    Variable store : F -> F -> res F.
    (** the loop, video.py 88-90 and 139-141 *)
    Fixpoint load_all_talk (verbose count : Z) (protos : list F) (n j : nat) (l : list (list F)) (e : option pyexc) (out : list (list F)) : talk (list (list F)) :=
      match l with
      | [] => say_nothing (match e with None => Ok out | Some e => Raise e end)
      | frames :: l =>
          talk_bind (progress verbose (Z.of_nat j) count) (fun _ =>
          talk_bind (say_nothing (load_rows store protos n j 0 frames out)) (fun out =>
          load_all_talk verbose count protos n (S j) l e out))
      end.
    (** video.py 81-92 and 134-143 *)
    Definition load_arrays_talk (verbose : Z) (junk : nat -> nat -> F) (video : gen (list F)) (count : Z) : talk (list (list F)) :=
      talk_bind (progress verbose 0 count) (fun _ =>
      match yields video with
      | [] => say_nothing (Raise (match ending video with None => StopIteration | Some e => e end))
      | frames :: l =>
          talk_bind
            (if (count <? 0)%Z then match frames with [] => load_all_talk verbose count frames 0 1 l (ending video) [] | _ => say_nothing (Raise ValueError) end
             else
               let n := Z.to_nat count in
               let out := map (fun i => map (junk i) (seq 0 n)) (seq 0 (length frames)) in
               talk_bind (say_nothing (load_rows store frames n 0 0 frames out)) (fun out =>
               load_all_talk verbose count frames n 1 l (ending video) out))
            (fun out => talk_bind (progress verbose count count) (fun _ => say_nothing (Ok out)))
      end).
    Definition the_count (video : videolike F) (count : option Z) : res Z :=
      match count with
      | Some c => Ok c
      | None => match v_len video with Some n => Ok (Z.of_nat n) | None => Raise ValueError end
      end.
    Definition message (verbose : Z) (s : string) : talk unit := (if print1 verbose then [(s ++ LF)%string] else [], Ok tt).
    (** asarrays, video.py 50-94, with its messages; the clock shows t0 at the start and t1 at the end *)
    Definition asarrays_talk (verbose t0 t1 : Z) (junk : nat -> nat -> F) (video : videolike F) (count : option Z) : talk (list (list F)) :=
      talk_bind (message verbose "Loading array...") (fun _ =>
      talk_bind (say_nothing (the_count video count)) (fun count =>
      talk_bind (load_arrays_talk verbose junk (v_gen video) count) (fun out =>
      talk_bind (print_frame_rate verbose count t0 None t1 "... processed") (fun _ => say_nothing (Ok out))))).
    (** asmemmaps, video.py 96-144, with its messages (no frame rate) *)
    Definition asmemmaps_talk (verbose : Z) (junk : nat -> nat -> F) (video : videolike F) (count : option Z) : talk (list (list F)) :=
      talk_bind (say_nothing (the_count video count)) (fun count =>
      talk_bind (message verbose "Writing to memmap...") (fun _ =>
      if v_iterator video then load_arrays_talk verbose junk (v_gen video) count
      else talk_bind (progress verbose 0 count) (fun _ => say_nothing (Raise TypeError)))).
  End Loading.

  (** The numbers given to print_progress by _compute_multi, multitau.py 221, 264-267, 291-296: 0, 50, 50 + 25, ...:
      progress is a power of one half, so that int(100*progress) is the quotient of 100 by a power of two. *)
  Fixpoint progress_ints (k : nat) (nlevel : nat) (progress_int : Z) : list Z :=
    match nlevel with
    | O => []
    | S n => let progress_int := (progress_int + 100 / 2 ^ Z.of_nat k)%Z in progress_int :: progress_ints (S k) n progress_int
    end.
  Definition multi_progress (nlevel : nat) : list Z := [0; 50]%Z ++ progress_ints 2 nlevel 50 ++ [100%Z].
  (** All bars of _compute_multi *)
  Fixpoint all_talk (l : list (talk unit)) : talk unit :=
    match l with [] => say_nothing (Ok tt) | x :: l => talk_bind x (fun _ => all_talk l) end.
  Definition multi_bars (verbose : Z) (nlevel : nat) : talk unit := all_talk (map (fun i => progress verbose i 100) (multi_progress nlevel)).
End Printing.
