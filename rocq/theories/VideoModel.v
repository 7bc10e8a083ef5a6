(** Videos, video.py 35-330 and 422-478, 665-747.  A video is the list of multi-frames it
    yields together with the exception it ends with, if any.  A multi-frame is a list of frames. *)
From Verif Require Import Base.
Set Implicit Arguments.

Record gen (A : Type) : Type := Gen { yields : list A; ending : option pyexc }.
Arguments Gen {A}.
(** for x in video: yield body(x) *)
Fixpoint gen_each (A B : Type) (body : A -> res B) (l : list A) (e : option pyexc) : gen B :=
  match l with
  | [] => Gen [] e
  | x :: l => match body x with
              | Ok y => let g := gen_each body l e in Gen (y :: yields g) (ending g)
              | Raise e' => Gen [] (Some e')
              end
  end.
(** zip(x, y) *)
Fixpoint gen_zip (A B : Type) (x : list A) (ex : option pyexc) (y : list B) (ey : option pyexc) : gen (A * B) :=
  match x with
  | [] => Gen [] ex
  | a :: x => match y with
              | [] => Gen [] ey
              | b :: y => let g := gen_zip x ex y ey in Gen ((a, b) :: yields g) (ending g)
              end
  end.
(** A list comprehension whose body may raise *)
Fixpoint map_res_v (A B : Type) (f : A -> res B) (l : list A) : res (list B) :=
  match l with
  | [] => Ok []
  | x :: l => let* y := f x in let* ys := map_res_v f l in Ok (y :: ys)
  end.

Section Arrays.
  Variable F : Type.
  (** array[...] = frame for a row of an array made for frames like [proto]: the value stored *)
  Variable store : F -> F -> res F.
  (** fromarrays, video.py 35-48: zip of the arrays, an array being the list of its frames *)
  Fixpoint zip_all (arrays : list (list F)) (fuel : nat) : list (list F) :=
    match fuel with
    | O => []
    | S fuel => match arrays with
                | [] => []
                | _ => if forallb (fun a => negb (match a with [] => true | _ => false end)) arrays
                       then flat_map (fun a => match a with [] => [] | x :: _ => [x] end) arrays :: zip_all (map (@tl F) arrays) fuel
                       else []
                end
    end.
  Definition fromarrays (arrays : list (list F)) : gen (list F) :=
    Gen (zip_all arrays (match arrays with [] => O | a :: _ => length a end)) None.

  (** What asarrays and asmemmaps need to know about their argument: the multi-frames, len() if
      it has one, whether next() can be called on it *)
  Record videolike : Type := VideoLike { v_gen : gen (list F); v_len : option nat; v_iterator : bool }.
  (** out[i][j] = frame, video.py 74-75 and 84 *)
  Definition load_row (protos : list F) (count j : nat) (out : list (list F)) (i : nat) (frame : F) : res (list (list F)) :=
    if i <? length out then
      if j <? count then
        let* v := store (nth i protos frame) frame in
        Ok (upd out i (upd (nth i out []) j v))
      else Raise IndexError
    else Raise IndexError.
  Fixpoint load_rows (protos : list F) (count j : nat) (i : nat) (frames : list F) (out : list (list F)) : res (list (list F)) :=
    match frames with
    | [] => Ok out
    | f :: frames => let* out := load_row protos count j out i f in load_rows protos count j (S i) frames out
    end.
  Fixpoint load_all (protos : list F) (count j : nat) (l : list (list F)) (e : option pyexc) (out : list (list F)) : res (list (list F)) :=
    match l with
    | [] => match e with None => Ok out | Some e => Raise e end
    | frames :: l => let* out := load_rows protos count j 0 frames out in load_all protos count (S j) l e out
    end.
  (** The common part, video.py 80-94 and 134-144; [junk i j] is the content of the new arrays *)
  Definition load_arrays (junk : nat -> nat -> F) (video : gen (list F)) (count : Z) : res (list (list F)) :=
    match yields video with
    | [] => Raise (match ending video with None => StopIteration | Some e => e end)
    | frames :: l =>
        if (count <? 0)%Z then match frames with [] => load_all frames 0 1 l (ending video) [] | _ => Raise ValueError end
        else
          let count := Z.to_nat count in
          let out := map (fun i => map (junk i) (seq 0 count)) (seq 0 (length frames)) in
          let* out := load_rows frames count 0 0 frames out in
          load_all frames count 1 l (ending video) out
    end.
  (** asarrays, video.py 50-94 *)
  Definition asarrays (junk : nat -> nat -> F) (video : videolike) (count : option Z) : res (list (list F)) :=
    let* count := match count with
                  | Some c => Ok c
                  | None => match v_len video with Some n => Ok (Z.of_nat n) | None => Raise ValueError end
                  end in
    load_arrays junk (v_gen video) count.
  (** asmemmaps, video.py 96-144: calls next(video) without iter *)
  Definition asmemmaps (junk : nat -> nat -> F) (video : videolike) (count : option Z) : res (list (list F)) :=
    let* count := match count with
                  | Some c => Ok c
                  | None => match v_len video with Some n => Ok (Z.of_nat n) | None => Raise ValueError end
                  end in
    if v_iterator video then load_arrays junk (v_gen video) count else Raise TypeError.
  (** load, video.py 146-164 *)
  Definition load (junk : nat -> nat -> F) (video : videolike) (count : option Z) : res (list (list F)) :=
    let* out := asarrays junk video count in
    Ok (yields (fromarrays out)).
End Arrays.

(** Frames as lists of rows *)
Section Frames.
  Variable V : Type.
  Definition frame : Type := list (list V).
  Definition shape_eqb (x y : frame) : bool := (length x =? length y) && forallb (fun p => length (fst p) =? length (snd p)) (combine x y).
  (** x op y for arrays of one shape; numpy's broadcasting is not modelled: it is an error here *)
  Definition pointwise (op : V -> V -> V) (x y : frame) : res frame :=
    if shape_eqb x y then Ok (map (fun p => map (fun ab => op (fst ab) (snd ab)) (combine (fst p) (snd p))) (combine x y)) else Raise ValueError.
  (** subtract, add, multiply, video.py 225-250, 252-277, 304-328; [cast] is np.asarray(.., dtype) *)
  Definition two_videos (op : V -> V -> V) (cast : frame -> frame) (inplace : bool) (x y : gen (list frame)) : gen (list frame) :=
    let z := gen_zip (yields x) (ending x) (yields y) (ending y) in
    gen_each (fun p : list frame * list frame =>
        let '(frames, arrays) := p in
        if negb (length frames =? length arrays) then Raise ValueError
        else map_res_v (fun wf => let* r := pointwise op (snd wf) (fst wf) in Ok (if inplace then r else cast r)) (combine arrays frames))
      (yields z) (ending z).
  (** A slice object start:stop with step 1 or None *)
  Definition slice : Type := (option Z * option Z)%type.
  Definition take_slice (A : Type) (s : slice) (l : list A) : list A :=
    py_slice l (match fst s with Some a => a | None => 0%Z end) (match snd s with Some b => b | None => Z.of_nat (length l) end).
  (** crop, video.py 166-204; None is a roi that is not a pair of slices *)
  Definition crop_frame (h w : slice) (f : frame) : frame := map (take_slice w) (take_slice h f).
  Definition crop (video : gen (list frame)) (roi : option (slice * slice)) : gen (list frame) :=
    match roi with
    | None => Gen [] (Some ValueError)
    | Some (h, w) => gen_each (fun frames => Ok (map (crop_frame h w) frames)) (yields video) (ending video)
    end.
  (** mask, video.py 206-223: boolean indexing gives the selected values row by row *)
  Definition mask_frame (m : list (list bool)) (f : frame) : res (list V) :=
    if (length f =? length m) && forallb (fun p => length (fst p) =? length (snd p)) (combine f m)
    then Ok (flat_map (fun p => map fst (filter snd (combine (fst p) (snd p)))) (combine f m))
    else Raise IndexError.
  Definition mask (video : gen (list frame)) (m : list (list bool)) : gen (list (list V)) :=
    gen_each (fun frames => map_res_v (mask_frame m) frames) (yields video) (ending video).
End Frames.

(** normalize_video, video.py 280-302, with exact division; a zero mean gives nan or inf, None *)
Section NormalizeVideo.
  Variable K : Fld.
  Definition frame_mean (f : frame K) : K := fdiv K (Sum (fmon K) (concat f) (fun x => x)) (fnat K (length (concat f))).
  Definition normalize_frame (iszero : K -> bool) (f : frame K) : option (frame K) :=
    if iszero (frame_mean f) then None else Some (map (map (fun x => fdiv K x (frame_mean f))) f).
  Definition normalize_video (iszero : K -> bool) (video : gen (list (frame K))) : gen (list (option (frame K))) :=
    gen_each (fun frames => Ok (map (normalize_frame iszero) frames)) (yields video) (ending video).
End NormalizeVideo.

(** play and the show functions in one thread, video.py 461-478, 665-747.  A figure is its image
    queue (at most one image) and what it does with a multi-frame when the queue is empty. *)
Section Play.
  Variables F I : Type.
  Definition figure : Type := list F -> res I.
  (** show_video, video.py 665-698: frames[id] *)
  Definition show_video_image (image : F -> I) (id : Z) : figure := fun frames =>
    match py_index (length frames) id with
    | Some i => match nth_error frames i with Some f => Ok (image f) | None => Raise IndexError end
    | None => Raise IndexError
    end.
  (** show_diff, video.py 721-730: x, y = frames *)
  Definition show_diff_image (image : F -> F -> I) : figure := fun frames =>
    match frames with [x; y] => Ok (image x y) | _ => Raise ValueError end.
  (** if queue.empty(): queue.put(image) *)
  Definition offer (fig : figure) (frames : list F) (q : list I) : res (list I) :=
    match q with
    | [] => let* im := fig frames in Ok (q ++ [im])
    | _ => Ok q
    end.
  Fixpoint offer_all (figs : list figure) (frames : list F) (qs : list (list I)) : res (list (list I)) :=
    match figs, qs with
    | fig :: figs, q :: qs => let* q := offer fig frames q in let* qs := offer_all figs frames qs in Ok (q :: qs)
    | _, _ => Ok []
    end.
  (** play(show_n(.. show_1(video))): [intime i] is the outcome of the clock test (466) *)
  Fixpoint play_loop (figs : list figure) (intime : nat -> bool) (i : nat) (l : list (list F)) (e : option pyexc) (qs : list (list I)) : gen (list F * list (list I)) :=
    match l with
    | [] => Gen [] e
    | frames :: l =>
        match offer_all figs frames qs with
        | Raise e' => Gen [] (Some e')
        | Ok qs1 =>
            let qs2 := if intime i then map (@tl I) qs1 else qs1 in
            let g := play_loop figs intime (S i) l e qs2 in
            Gen ((frames, qs1) :: yields g) (ending g)
        end
    end.
  Definition play (figs : list figure) (intime : nat -> bool) (video : gen (list F)) : gen (list F * list (list I)) :=
    play_loop figs intime 0 (yields video) (ending video) (map (fun _ => []) figs).
  (** show_diff with dt, video.py 744-747: zip(video, t1, t2); None when t1 or t2 is missing *)
  Definition show_diff_dt (video : gen (list F)) (t1 t2 : option (list Z)) : gen (list F) :=
    match t1, t2 with
    | Some t1, Some t2 =>
        let z := gen_zip (yields video) (ending video) (combine t1 t2) None in
        Gen (map fst (yields z)) (ending z)
    | _, _ => Gen [] (Some TypeError)
    end.
End Play.
