(** Model of the data that the viewers compute, viewer.py (plotting, sliders and buttons left out):
    data_repr 255-272, indices of the array viewers 274-365 and 433-436, masks and averages of
    DataViewer 594-765, averages of CorrViewer and MultitauViewer 895-1033, the frame shown by
    VideoViewer 61-186.

    Simplifications: those of SectorModel (a pixel's time series is one value of type [A], [mean] is
    np.nanmean over the pixels); the times t are left out; the state that a viewer is left in by an
    exception is not described. *)
From Coq Require Import String Ascii.
From Verif Require Import Base Ordered MapModel SectorModel NormModel VideoModel.
Set Implicit Arguments.
Open Scope string_scope.
Open Scope nat_scope.
Local Notation length := List.length.

(* ------------------------------------------------------------------ *)
(** * Representation of complex data *)

(** str.lower() for ASCII letters *)
Definition lower_char (c : ascii) : ascii :=
  let n := nat_of_ascii c in
  if (65 <=? n) && (n <=? 90) then ascii_of_nat (n + 32) else c.
Fixpoint lower (s : string) : string :=
  match s with EmptyString => "" | String c s' => String (lower_char c) (lower s') end.

(** viewer.py 255-261 *)
Definition _inspect_data_repr_mode (mode : string) : res string :=
  let mode := lower (strip mode) in
  if existsb (String.eqb mode) ["real"; "imag"; "abs"; "phase"] then Ok mode else Raise ValueError.

Section Repr.
  Variable K : Fld.
  (** np.abs and np.arctan2 *)
  Variable abs : Cx K -> K.
  Variable arctan2 : K -> K -> K.
  (** data_repr, viewer.py 263-272, of one number *)
  Definition data_repr (data : Cx K) (mode : string) : res K :=
    let* mode := _inspect_data_repr_mode mode in
    if String.eqb mode "real" then Ok (cre data)
    else if String.eqb mode "imag" then Ok (cim data)
    else if String.eqb mode "abs" then Ok (abs data)
    else Ok (arctan2 (cim data) (cre data)).
End Repr.

(* ------------------------------------------------------------------ *)
(** * Indices of array viewers *)

(** l[i] = v for a python list *)
Definition py_set {A} (l : list A) (i : Z) (v : A) : res (list A) :=
  match py_index (length l) i with
  | Some k => Ok (firstn k l ++ v :: skipn (S k) l)%list
  | None => Raise IndexError
  end.
(** set_indices, viewer.py 315-319 (also run by the constructors, 279-283 and 422-425): [None] stands
    for slice(None).  A missing value vals[i] is an IndexError; values that are left over are ignored. *)
Definition set_indices {V} (axes : list Z) (vals : list V) : res (list (option V)) :=
  snd (fold_left (fun (s : nat * res (list (option V))) ax =>
    let '(i, r) := s in
    (S i, let* indices := r in
          match nth_error vals i with
          | None => Raise IndexError
          | Some v => py_set indices ax (Some v)
          end)) axes (0, Ok (repeat None (length axes)))).

(* ------------------------------------------------------------------ *)
(** * DataViewer *)
Section Viewer.
  Variable K : OFld.
  Variable pi : K.
  Variable floor : K -> Z.
  Variable hyp arg : K -> K -> K.
  Variable A : Type.
  Variable cj : A -> A.
  Variable mean : list A -> A.
  Variable kmean : list K -> K.
  (** np.empty of from_rfft2_data *)
  Variable junk : nat -> nat -> bool.

  (** The attributes mask, half_mask and conj_mask: arrays of two dimensions, or of one if the data
      has only the pixels of the computed mask *)
  Record masks := Masks { m_mask : kdata bool; m_half : kdata bool; m_conj : kdata bool }.
  Record viewer := Viewer {
    v_shape : option (Z * Z);
    v_computed : option (mat bool);
    v_kisize : option Z; v_kjsize : option Z;
    v_data : option (kdata A);
    v_maps : option (mat K * mat K);
    v_masks : option masks
  }.

  (** __init__, viewer.py 608-615 *)
  Definition viewer_init (shape : option (Z * Z)) (mask : option (mat bool)) : viewer :=
    match mask with
    | Some m => Viewer shape mask (Some (Z.of_nat (mh m))) (Some (Z.of_nat (mw m))) None None None
    | None => Viewer shape mask None None None None None
    end.
  (** set_data, viewer.py 674-690.  Without a mask the shape of the data is unpacked into two sizes. *)
  Definition set_data (v : viewer) (data : kdata A) : res viewer :=
    let* (kisize, kjsize) :=
      match v_computed v with
      | Some _ => Ok (v_kisize v, v_kjsize v)
      | None => match data with
                | Full x => Ok (Some (Z.of_nat (mh x)), Some (Z.of_nat (mw x)))
                | Masked _ => Raise ValueError
                end
      end in
    Ok (Viewer (v_shape v) (v_computed v) kisize kjsize (Some data) (v_maps v) (v_masks v)).
  (** _init_map, viewer.py 617-620 (the map of indices is computed once more by set_mask) *)
  Definition _init_map (v : viewer) : res (mat K * mat K) :=
    let* (kisize, kjsize) := as_fft2_shape (v_kisize v) (v_kjsize v) (v_shape v) in
    fft2_kangle K hyp arg (Some kisize) (Some kjsize) (v_shape v).
  (** mask.any() *)
  Definition any_mask (m : kdata bool) : bool :=
    match m with Full x => existsb (fun b => b) (all_entries x) | Masked l => existsb (fun b => b) l end.
  (** self.kshape == (self.kisize, self.kjsize) where the sizes are those of the computed mask *)
  Definition is_full (data : kdata A) (c : mat bool) : bool :=
    match data with Full x => (mh x =? mh c) && (mw x =? mw c) | Masked _ => false end.
  (** set_mask, viewer.py 722-765.  A computed mask without data: the attribute kshape is missing. *)
  Definition set_mask (v : viewer) (k : Z) (angle sector kstep : K) : res (viewer * bool) :=
    let* maps := match v_maps v with Some m => Ok m | None => _init_map v end in
    let '(kmap, anglemap) := maps in
    let* indexmap := fft2_sector_indexmap K pi floor kmap anglemap angle sector kstep in
    let mask := Mat (mh indexmap) (mw indexmap) (fun i j => (mat_at indexmap i j =? k)%Z) in
    let* half_mask := as_rfft2_mask mask in
    let* conj_mask := as_rfft2_conj false mask in
    let* m :=
      match v_computed v with
      | None => Ok (Masks (Full mask) (Full half_mask) (Full conj_mask))
      | Some c =>
          match v_data v with
          | None => Raise AttributeError
          | Some data =>
              if is_full data c then
                let* half_mask := mat_and half_mask c in
                let* full := from_rfft2_data junk (fun b => b) c (v_shape v) in
                let* mask := mat_and mask full in
                let* conj_mask := mat_and conj_mask c in
                Ok (Masks (Full mask) (Full half_mask) (Full conj_mask))
              else
                let* full := from_rfft2_data junk (fun b => b) c (v_shape v) in
                let* graph_mask := mat_and mask full in
                let* half_mask := mat_select half_mask c in
                let* conj_mask := mat_select conj_mask c in
                let* mask := mat_select mask full in
                Ok (Masks (Masked mask) (Masked half_mask) (Masked conj_mask))
          end
      end in
    Ok (Viewer (v_shape v) (v_computed v) (v_kisize v) (v_kjsize v) (v_data v) (Some maps) (Some m), any_mask (m_mask m)).

  (** data[..., mask, :].  A mask of one dimension on data with all pixels is an IndexError, unless it is as
      long as the rows: then numpy selects columns, and the result (several curves) is left out. *)
  Definition kindex {B} (data : kdata B) (mask : kdata bool) : res (list B) :=
    match data, mask with
    | Full x, Full m => mat_select x m
    | Masked l, Masked m => list_select l m
    | _, _ => Raise IndexError
    end.
  (** np.conj of the marked pixels *)
  Definition conjugated (data : list A) (flags : list bool) : list A :=
    map (fun p : A * bool => if snd p then cj (fst p) else fst p) (combine data flags).
  (** get_data and _get_avg_data, viewer.py 692-714, without data_repr *)
  Definition get_data (v : viewer) : res A :=
    match v_data v with
    | None => Raise ValueError
    | Some data =>
        match v_masks v with
        | None => Raise ValueError
        | Some m =>
            let* d := kindex data (m_half m) in
            let* flags := kindex (m_conj m) (m_half m) in
            Ok (mean (conjugated d flags))
        end
    end.
  (** get_k, viewer.py 716-720.  A mask of one dimension selects rows of kmap. *)
  Definition get_k (v : viewer) : res K :=
    match v_masks v with
    | None => Raise ValueError
    | Some m =>
        match v_maps v with
        | None => Raise TypeError
        | Some (kmap, _) =>
            match m_mask m with
            | Full mask => let* ks := mat_select kmap mask in Ok (kmean ks)
            | Masked mask =>
                let* rows := list_select (seq 0 (mh kmap)) mask in
                Ok (kmean (flat_map (fun i => map (mat_at kmap i) (seq 0 (mw kmap))) rows))
            end
        end
    end.

  (* ---------------------------------------------------------------- *)
  (** * CorrViewer and MultitauViewer *)
  (** The data of a pixel with its background and its variance, and what is done with it: [normalize]
      (or normalize_multi), [fold_data] and [average] (log_average with the size given, log_merge, or
      nothing). *)
  Variable P : Type.
  Variable normalize : P -> res A.
  Variable fold_data average : A -> A.
  (** Whether complex data is folded, viewer.py 919-923 and 1003-1007 (498-504 and 564-568) *)
  Definition is_none {B} (x : statarg B) : bool := match x with SNone => true | _ => false end.
  Definition is_tuple {B} (x : statarg B) : bool := match x with STwo _ _ => true | _ => false end.
  Definition folded {B D} (iscomplex : bool) (background : statarg B) (variance : statarg D) (fold : option bool) : res bool :=
    if iscomplex then
      if is_tuple background || is_tuple variance || given fold then Ok true
      else if is_none background && is_none variance then Raise ValueError
      else Ok false
    else Ok false.
  (** _get_avg_data, viewer.py 916-937 and 999-1023, without data_repr *)
  Definition corr_get_data (m : masks) (data : kdata P) {B D} (iscomplex : bool) (background : statarg B) (variance : statarg D) (fold : option bool) : res A :=
    let* px := kindex data (m_half m) in
    let* d := map_res_v normalize px in
    let* f := folded iscomplex background variance fold in
    let d := if f then map fold_data d else d in
    let d := map average d in
    let* flags := kindex (m_conj m) (m_half m) in
    Ok (mean (conjugated d flags)).
End Viewer.

(* ------------------------------------------------------------------ *)
(** * VideoViewer *)
Section VideoViewer.
  Variable A : Type.
  (** update, viewer.py 149-166, for a video that is a generator.  [rest] are the frames it has still
      to yield, [index] the attribute of this name, [val] the position of the slider; the frame that
      is shown, if there is a new one *)
  Fixpoint advance (rest : list A) (index i : Z) (frame : option A) : list A * Z * option A :=
    match rest with
    | [] => ([], index, frame)
    | f :: rest => let index := (index + 1)%Z in
                   if (i <=? index)%Z then (rest, index, Some f) else advance rest index i (Some f)
    end.
  Definition update_generator (s : list A * Z * option A) (i : Z) : list A * Z * option A :=
    let '(rest, index, shown) := s in
    if (index <? i)%Z then
      let '(rest, index, frame) := advance rest index i None in
      (rest, index, match frame with Some f => Some f | None => shown end)
    else s.
  (** __init__, viewer.py 76: the first frame is taken and shown *)
  Definition viewer_start (video : list A) : res (list A * Z * option A) :=
    match video with [] => Raise StopIteration | f :: rest => Ok (rest, 0%Z, Some f) end.
  (** update for a video that can be indexed *)
  Definition update_list (video : list A) (i : Z) : res A :=
    match py_index (length video) i with
    | Some k => match nth_error video k with Some f => Ok f | None => Raise IndexError end
    | None => Raise IndexError
    end.
End VideoViewer.
