(** Model of normalize and its helpers for arrays of any number of pixels: broadcasting, masks and the
    returned weight (norm.py 134-163, 232-262, 265-312, 429-463, 489-726, 741-762).

    An array has a shape and an entry for every index.  Simplifications: numbers are exact and
    division by a count of zero gives [NonFin], as in NormModel; a count array has at least one axis; the [out] argument
    and the printing are left out; arrays of unequal shape in a pair of variances that cannot be broadcast
    are refused with ValueError (numpy 1.24 and later).  _avg.denoise works on rows and is a parameter. *)
From Coq Require Import String.
From Verif Require Import Base NormModel.
Open Scope string_scope.
Open Scope nat_scope.
Local Notation length := List.length.
Set Implicit Arguments.

(* ------------------------------------------------------------------ *)
(** * Arrays of numpy *)
Record nd (A : Type) := Nd { shape : list nat; at_ : list nat -> A }.
Definition rank (A : Type) (x : nd A) : nat := length (shape x).

(** Broadcasting of two shapes, last axis first *)
Fixpoint bc_rev (a b : list nat) : option (list nat) :=
  match a, b with
  | [], _ => Some b
  | _, [] => Some a
  | x :: a, y :: b =>
      match bc_rev a b with
      | None => None
      | Some r => if x =? y then Some (x :: r) else if x =? 1 then Some (y :: r) else if y =? 1 then Some (x :: r) else None
      end
  end.
Definition bcast (a b : list nat) : option (list nat) := option_map (@rev nat) (bc_rev (rev a) (rev b)).
Definition bcast_all (l : list (list nat)) : res (list nat) :=
  fold_left (fun r s => let* r := r in match bcast r s with Some t => Ok t | None => Raise ValueError end) l (Ok []).
(** The entry of an array that is used at the index [p] of the result *)
Fixpoint ix_rev (s p : list nat) : list nat :=
  match s, p with
  | [], _ => []
  | d :: s, i :: p => (if d =? 1 then 0 else i) :: ix_rev s p
  | _ :: _, [] => []
  end.
Definition ix (s p : list nat) : list nat := rev (ix_rev (rev s) (rev p)).
Definition look (A : Type) (x : nd A) (p : list nat) : A := at_ x (ix (shape x) p).
(** A ufunc of arrays of the given shapes *)
Definition ewise (A : Type) (shapes : list (list nat)) (f : list nat -> A) : res (nd A) :=
  let* s := bcast_all shapes in Ok (Nd s f).
(** x op= y: the shape of x must not change *)
Definition inplace (A B : Type) (x : nd A) (y : nd B) (f : A -> B -> A) : res (nd A) :=
  let* s := bcast_all [shape x; shape y] in
  if list_eq_dec Nat.eq_dec s (shape x) then Ok (Nd s (fun p => f (look x p) (look y p))) else Raise ValueError.
(** x[..., None] *)
Definition newaxis (A : Type) (x : nd A) : nd A := Nd (shape x ++ [1])%list (fun p => at_ x (removelast p)).
(** np.expand_dims(x, -2), [k] times *)
Definition expand (A : Type) (k : nat) (x : nd A) : nd A :=
  Nd (removelast (shape x) ++ repeat 1 k ++ [last (shape x) 0])%list (fun p => at_ x (firstn (rank x - 1) p ++ [last p 0])%list).
(** All indices of a shape, in the order of the memory; where a boolean array is True *)
Fixpoint indices (s : list nat) : list (list nat) :=
  match s with [] => [[]] | d :: s => flat_map (fun i => map (cons i) (indices s)) (seq 0 d) end.
Definition positions (m : nd bool) : list (list nat) := filter (at_ m) (indices (shape m)).
(** x[mask] *)
Definition take_first (A : Type) (x : nd A) (mask : option (nd bool)) : res (nd A) :=
  match mask with
  | None => Ok x
  | Some m =>
      if list_eq_dec Nat.eq_dec (firstn (rank m) (shape x)) (shape m)
      then Ok (Nd (length (positions m) :: skipn (rank m) (shape x)) (fun p => at_ x (nth (hd 0 p) (positions m) [] ++ tl p)%list))
      else Raise IndexError
  end.
(** x[..., mask, :] *)
Definition take_rows (A : Type) (x : nd A) (m : nd bool) : res (nd A) :=
  if rank x <? rank m + 1 then Raise IndexError
  else
    let k := rank x - rank m - 1 in
    if list_eq_dec Nat.eq_dec (firstn (rank m) (skipn k (shape x))) (shape m)
    then Ok (Nd (firstn k (shape x) ++ [length (positions m); last (shape x) 0])%list
                (fun p => at_ x (firstn k p ++ nth (nth k p 0) (positions m) [] ++ [last p 0])%list))
    else Raise IndexError.

(** A background or variance: nothing, a pair, or one array *)
Inductive sarr (A : Type) := ANone | APair (x y : nd A) | AOne (x : nd A).
Arguments ANone {A}.
(** a, b = x in a try: an array is unpacked along its first axis if that has length two *)
Definition unpack (A : Type) (x : sarr A) : option (nd A * nd A) :=
  match x with
  | ANone => None
  | APair x y => Some (x, y)
  | AOne x => match shape x with 2 :: s => Some (Nd s (fun p => at_ x (0 :: p)), Nd s (fun p => at_ x (1 :: p))) | _ => None end
  end.

Section NormalizeArrays.
  Variable K : Fld.
  Notation C := (Cx K).
  Variable V : Type.
  Variable O : NormOps K V.
  Variable denoise : list (fval V) -> list (fval V).
  Local Notation "2" := (fadd K (f1 K) (f1 K)).

  (** A data tuple of arrays: ccorr/acorr, cdiff/adiff, anything else *)
  Inductive ndata :=
  | NCorr (d : nd V) (count : nd nat) (sq : option (nd K)) (s1 s2 : option (nd C))
  | NDiff (d : nd V) (count : nd nat) (s1 s2 : option (nd C))
  | NBad.

  (** scale_factor, norm.py 134-163 *)
  Definition scale_factor_nd (variance : sarr K) (mask : option (nd bool)) : res (nd K) :=
    let* scale := (match unpack variance, variance with
                   | Some (v1, v2), _ => ewise [shape v1; shape v2] (fun p => fdiv K (fadd K (look v1 p) (look v2 p)) 2)
                   | None, AOne v => Ok v
                   | None, _ => Raise ValueError
                   end) in
    take_first scale mask.
  (** noise_delta, norm.py 232-262 *)
  Definition noise_delta_nd (variance : sarr K) (mask : option (nd bool)) (scale : bool) : res (nd K) :=
    let* delta := (match unpack variance, variance with
                   | Some (v1, v2), _ => ewise [shape v1; shape v2] (fun p => fdiv K (fsub K (look v2 p) (look v1 p)) (if scale then fadd K (look v1 p) (look v2 p) else 2))
                   | None, AOne v => Ok (Nd (shape v) (fun _ => f0 K))
                   | None, _ => Raise ValueError
                   end) in
    take_first delta mask.
  (** denoise along the last axis *)
  Definition row (A : Type) (x : nd A) (p : list nat) : list A := map (fun t => at_ x (p ++ [t])%list) (seq 0 (last (shape x) 0)).
  Definition denoise_nd (x : nd (fval V)) : nd (fval V) := Nd (shape x) (fun p => nth (last p 0) (denoise (row x (removelast p))) NonFin).
  (** weight_from_data, norm.py 265-312, with pre_filter=True *)
  Definition weight_from_data_nd (corr : nd (fval V)) (delta scale_factor : nd K) (mode : string) : res (nd (fval V)) :=
    if String.eqb mode "corr" then
      let corr := denoise_nd corr in
      let* g := ewise [shape corr; shape (newaxis scale_factor)] (fun p => fv_map (fun x => op_over O x (look (newaxis scale_factor) p)) (look corr p)) in
      ewise [shape g; shape (newaxis delta)] (fun p => fv_map (fun x => op_weight_g O x (look (newaxis delta) p)) (look g p))
    else if String.eqb mode "diff" then
      let corr := denoise_nd corr in
      let* d := ewise [shape corr; shape (newaxis scale_factor)] (fun p => fv_map (fun x => op_over O x (look (newaxis scale_factor) p)) (look corr p)) in
      ewise [shape d; shape (newaxis delta)] (fun p => fv_map (fun x => op_weight_d O x (look (newaxis delta) p)) (look d p))
    else Raise ValueError.
  (** weighted_sum, _core_nb.py 184-192 *)
  Definition weighted_sum_nd (x y weight : nd (fval V)) : res (nd (fval V)) :=
    ewise [shape x; shape y; shape weight] (fun p => fv_bind (look x p) (fun a => fv_bind (look y p) (fun b => fv_map (op_weighted O a b) (look weight p)))).
  (** _variance2offset, norm.py 441-443; _diff2corr, 429-433; _corr2diff, 435-439 *)
  Definition _variance2offset_nd variance mask : res (nd K) := let* s := scale_factor_nd variance mask in Ok (newaxis s).
  Definition _diff2corr_nd (data : nd (fval V)) variance mask : res (nd (fval V)) :=
    let* offset := _variance2offset_nd variance mask in
    let data := Nd (shape data) (fun p => fv_map (op_scal O (fopp K (fdiv K (f1 K) 2))) (at_ data p)) in
    inplace data offset (fun x o => fv_map (fun x => op_shift O x o) x).
  Definition _corr2diff_nd (data : nd (fval V)) variance mask : res (nd (fval V)) :=
    let* offset := _variance2offset_nd variance mask in
    let offset := Nd (shape offset) (fun p => fmul K (at_ offset p) 2) in
    let data := Nd (shape data) (fun p => fv_map (op_scal O (fopp K 2)) (at_ data p)) in
    inplace data offset (fun x o => fv_map (fun x => op_shift O x o) x).
  (** _inspect_background, norm.py 446-463 *)
  Definition _inspect_background_nd (background : sarr C) (norm : Z) (mask : option (nd bool)) : res (nd C * nd C) :=
    match background with
    | ANone => if (0 <? norm)%Z then Raise ValueError else Ok (Nd [] (fun _ => c0 K), Nd [] (fun _ => c0 K))
    | _ =>
        let (b1, b2) := match unpack background, background with Some bs, _ => bs | None, AOne b => (b, b) | None, _ => (Nd [] (fun _ => c0 K), Nd [] (fun _ => c0 K)) end in
        let* b1 := take_first b1 mask in
        let* b2 := take_first b2 mask in
        Ok (b1, b2)
    end.
  (** _method_from_data, norm.py 466-475 *)
  Definition _method_from_ndata (data : ndata) : res string :=
    match data with NCorr _ _ _ _ _ => Ok "corr" | NDiff _ _ _ _ => Ok "diff" | NBad => Raise ValueError end.
  (** _default_norm_from_data, norm.py 421-426 *)
  Definition _default_norm_from_ndata (data : ndata) (norm : option Z) : res Z :=
    match data with
    | NCorr _ _ sq s1 _ => _norm_from_ccorr_data (given sq) (given s1) norm
    | NDiff _ _ s1 s2 => _norm_from_cdiff_data (given s1) (given s2) norm
    | NBad => Raise ValueError
    end.
  (** take_data, norm.py 741-762: the count is not touched *)
  Definition take_opt (A : Type) (x : option (nd A)) (m : nd bool) : res (option (nd A)) :=
    match x with None => Ok None | Some x => let* y := take_rows x m in Ok (Some y) end.
  Definition take_data_nd (data : ndata) (m : nd bool) : res ndata :=
    match data with
    | NCorr d count sq s1 s2 =>
        let* d := take_rows d m in let* sq := take_opt sq m in let* s1 := take_opt s1 m in let* s2 := take_opt s2 m in Ok (NCorr d count sq s1 s2)
    | NDiff d count s1 s2 =>
        let* d := take_rows d m in let* s1 := take_opt s1 m in let* s2 := take_opt s2 m in Ok (NDiff d count s1 s2)
    | NBad => Ok NBad
    end.
  (** A formula, norm.py 636-718, for data that is masked and backgrounds with a new axis *)
  Definition formula_nd (data : ndata) (bg1 bg2 : nd C) (variance : sarr K) (mask : option (nd bool)) (norm : Z) (mode : string) : res (nd (fval V)) :=
    let to_mode r := if String.eqb mode "diff" then _corr2diff_nd r variance mask else Ok r in
    match data with
    | NCorr d count sq s1 s2 =>
        let count := expand (rank d - rank count) count in
        let means := let* m1 := need s1 in Ok (m1, match s2 with Some m2 => m2 | None => m1 end) in
        if (norm =? 1)%Z then
          let* r := ewise [shape d; shape count; shape bg1; shape bg2] (fun p => op_corr_baseline O (look d p) (look count p) (look bg1 p) (look bg2 p)) in
          to_mode r
        else if (norm =? 2)%Z then
          let* offset := _variance2offset_nd variance mask in
          let* q := need sq in
          let* r := ewise [shape d; shape count; shape bg1; shape bg2; shape offset; shape q] (fun p => op_struct_baseline O (look d p) (look count p) (look bg1 p) (look bg2 p) (look offset p) (look q p)) in
          to_mode r
        else if ((norm =? 5) || (norm =? 13))%Z then
          let* (m1, m2) := means in
          let* r := ewise [shape d; shape count; shape bg1; shape bg2; shape m1; shape m2] (fun p => op_corr_subtracted O (look d p) (look count p) (look bg1 p) (look bg2 p) (look m1 p) (look m2 p)) in
          to_mode r
        else if (norm =? 9)%Z then
          let* (m1, m2) := means in
          let* r := ewise [shape d; shape count; shape m1; shape m2] (fun p => op_corr_compensated O (look d p) (look count p) (look m1 p) (look m2 p)) in
          to_mode r
        else if ((norm =? 6) || (norm =? 14))%Z then
          let* offset := _variance2offset_nd variance mask in
          let* (m1, m2) := means in
          let* q := need sq in
          let* r := ewise [shape d; shape count; shape bg1; shape bg2; shape offset; shape q; shape m1; shape m2] (fun p => op_struct_subtracted O (look d p) (look count p) (look bg1 p) (look bg2 p) (look offset p) (look q p) (look m1 p) (look m2 p)) in
          to_mode r
        else if (norm =? 10)%Z then
          let* offset := _variance2offset_nd variance mask in
          let* (m1, m2) := means in
          let* q := need sq in
          let* r := ewise [shape d; shape count; shape offset; shape q; shape m1; shape m2] (fun p => op_struct_compensated O (look d p) (look count p) (look offset p) (look q p) (look m1 p) (look m2 p)) in
          to_mode r
        else Raise ValueError
    | NDiff d count s1 s2 =>
        let count := expand (rank d - rank count) count in
        let to_mode r := if String.eqb mode "corr" then _diff2corr_nd r variance mask else Ok r in
        if (norm =? 2)%Z then
          let* dm := ewise [shape bg2; shape bg1] (fun p => csub (look bg2 p) (look bg1 p)) in
          let* op := need (op_cdiff_1 O) in
          let* r := ewise [shape d; shape count; shape dm] (fun p => op (look d p) (look count p) (look dm p)) in
          to_mode r
        else if ((norm =? 6) || (norm =? 14))%Z then
          let* dm := ewise [shape bg2; shape bg1] (fun p => csub (look bg2 p) (look bg1 p)) in
          let* op := need (op_cdiff_3 O) in
          let* m1 := need s1 in
          let* m2 := need s2 in
          let* r := ewise [shape d; shape count; shape dm; shape m1; shape m2] (fun p => op (look d p) (look count p) (look dm p) (look m1 p) (look m2 p)) in
          to_mode r
        else Raise ValueError
    | NBad => Raise ValueError
    end.
  (** One call of normalize, norm.py 489-726, with ret_weight=True: the result and the weight; [rec] are the two calls for a weighted norm *)
  Definition normalize_nd_body (rec : Z -> res (nd (fval V))) (data : ndata) (background : sarr C) (variance : sarr K) (norm : option normarg)
      (mode : string) (scale : bool) (mask : option (nd bool)) (weight : option (nd (fval V))) : res (nd (fval V) * option (nd (fval V))) :=
    let* _ := _method_from_ndata data in
    let* mode := _inspect_mode mode in
    let* norm := match norm with
                 | Some (NStr s) => let* z := norm_from_string s in Ok (Some z)
                 | Some (NInt z) => Ok (Some z)
                 | None => Ok None
                 end in
    let* norm := _default_norm_from_ndata data norm in
    let* sf := if scale then scale_factor_nd variance mask else Ok (Nd [] (fun _ => f1 K)) in
    let* (bg1, bg2) := _inspect_background_nd background norm mask in
    if (Z.land norm NORM_WEIGHTED =? NORM_WEIGHTED)%Z then
      let kept := Z.land norm (Z.lor NORM_SUBTRACTED NORM_COMPENSATED) in
      let* comp_data := rec (Z.lor kept NORM_STRUCTURED) in
      let* base_data := rec (Z.lor kept NORM_STANDARD) in
      let* sf := if scale then Ok (Nd [] (fun _ => f1 K)) else scale_factor_nd variance mask in
      let* delta := noise_delta_nd variance mask scale in
      let* weight := match weight with
                     | Some w => Ok w
                     | None =>
                         let* w := weight_from_data_nd base_data delta sf mode in
                         let* x := weighted_sum_nd comp_data base_data w in
                         let* w := weight_from_data_nd x delta sf mode in
                         let* x := weighted_sum_nd comp_data base_data w in
                         weight_from_data_nd x delta sf mode
                     end in
      let* r := weighted_sum_nd comp_data base_data weight in
      Ok (r, Some weight)
    else
      let bg1 := newaxis bg1 in
      let bg2 := newaxis bg2 in
      let* data := match mask with None => Ok data | Some m => take_data_nd data m end in
      let* result := formula_nd data bg1 bg2 variance mask norm mode in
      let* result := if scale then inplace result (newaxis sf) (fun x s => fv_map (fun x => op_over O x s) x) else Ok result in
      Ok (result, weight).
  Definition normalize_ret data background variance norm mode scale mask weight : res (nd (fval V) * option (nd (fval V))) :=
    normalize_nd_body
      (fun z => let* (r, _) := normalize_nd_body (fun _ => Raise ValueError) data background variance (Some (NInt z)) mode scale mask None in Ok r)
      data background variance norm mode scale mask weight.
  (** normalize, norm.py 489-726, with ret_weight=False *)
  Definition normalize_nd data background variance norm mode scale mask weight : res (nd (fval V)) :=
    let* (r, _) := normalize_ret data background variance norm mode scale mask weight in Ok r.
End NormalizeArrays.
