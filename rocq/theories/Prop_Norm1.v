(** Properties C17 to C20: the data computed by ccorr and acorr, and what normalize
    makes of it.  A result of normalize is described as an average over the pairs of
    samples at each delay ([at_delays], [mean]); a delay without pairs has no finite
    value. *)
From Verif Require Import Base Kernels PairSpec CoreModel FftModel NormModel NormSpec CorrModel CorrSpec
  NormProofs NormProofs2 NormApi NormAuto NormMap NormApi2 Examples.
From Coq Require Import String.
Open Scope string_scope.
Open Scope nat_scope.
Local Notation length := List.length.
Set Implicit Arguments.

(** Two signals with irregular times. *)
Definition nf1 := [cz 1 2; cz 3 (-1); cz 2 0].
Definition nf2 := [cz 2 0; cz 1 1; cz 0 (-1)].
Definition nt1 := [0; 1; 3]%Z.
Definition nt2 := [0; 2; 3]%Z.
Definition nW (N : nat) : Cx QcF := cz 1 0.
Definition showv (x : fval QcF) := match x with Fin a => Some (show a) | NonFin => None end.
Definition showcv (x : fval (Cx QcF)) := match x with Fin a => Some (showc a) | NonFin => None end.
Definition idn {V} (x : list (fval V)) := x.

Lemma n_call : cross_call nW nf1 nf2 (Some nt1) (Some nt2) (Some 5) (Some "corr") 5.
Proof.
  split; [split; [reflexivity|]; split; [reflexivity|]; split; [reflexivity|discriminate]|].
  split; [reflexivity|]. split; [discriminate|]. left. left. reflexivity.
Qed.
Lemma n_acall : auto_call nW nf1 (Some nt1) (Some 5) None 5.
Proof.
  split; [split; [reflexivity|discriminate]|].
  split; [unfold distinct; repeat (constructor; [cbv; intuition discriminate|]); constructor|].
  split; [reflexivity|]. split; [discriminate|]. left. right. split; [reflexivity|discriminate].
Qed.

(* ------------------------------------------------------------------ *)
(** * C17: the arguments norm and method *)
Theorem C17_cross_rejected (K : Fld) (W : nat -> Cx K) aligned f1 f2 t1 t2 n norm method f1s f2s aout :
  ~ allowed true false norm method ->
  ccorr W aligned f1 f2 t1 t2 n norm method f1s f2s aout = Raise ValueError.
Proof. apply ccorr_rejects. Qed.
Print Assumptions C17_cross_rejected.
Theorem C17_cross_complex_rejected (K : Fld) (W : nat -> Cx K) aligned f1 f2 t1 t2 n norm method f1s f2s aout :
  ~ allowed true true norm method ->
  ccorr_complex W aligned f1 f2 t1 t2 n norm method f1s f2s aout = Raise ValueError.
Proof. apply ccorr_complex_rejects. Qed.
Print Assumptions C17_cross_complex_rejected.
Theorem C17_auto_rejected (K : Fld) (W : nat -> Cx K) aligned f t fs n norm method aout aoutc complex :
  ~ allowed false complex norm method ->
  acorr W aligned f t fs n norm method aout = Raise ValueError /\
  acorr_complex W aligned f t fs n norm method aoutc = Raise ValueError.
Proof. intros H. split; [eapply acorr_rejects|eapply acorr_complex_rejects]; exact H. Qed.
Print Assumptions C17_auto_rejected.
Example C17_rejected_example :
  ~ allowed true false (Some 4%Z) None /\ ~ allowed true true None (Some "diff") /\
  ~ allowed false false (Some 6%Z) (Some "diff") /\ ~ allowed true false None (Some "direct").
Proof.
  repeat split; intros [[H1 H2]|(H1 & H2 & H3)]; cbn in *; try discriminate;
  repeat (match goal with H : _ \/ _ |- _ => destruct H | H : _ /\ _ |- _ => destruct H end); try discriminate; try contradiction.
  discriminate (H2 eq_refl).
Qed.

(** Accepted calls return all their arrays with one cell per delay: the squares iff
    the norm has the bit STRUCTURED, the sums iff it has the bit SUBTRACTED. *)
Theorem C17_cross_accepted (K : Fld) (W : nat -> Cx K) aligned f1 f2 t1 t2 n norm nm method N :
  cross_call W f1 f2 t1 t2 n method N -> norm_arg norm nm ->
  exists data, ccorr W aligned f1 f2 t1 t2 n norm method None None None = Ok data /\ corr_shape data nm true N.
Proof. intros HC HN. eexists. split; [apply ccorr_call; eassumption|apply real_shape]. Qed.
Print Assumptions C17_cross_accepted.
Theorem C17_cross_complex_accepted (K : Fld) (W : nat -> Cx K) aligned f1 f2 t1 t2 n norm nm method N :
  0 < N -> cross_call W f1 f2 t1 t2 n method N -> norm_arg norm nm ->
  exists data, ccorr_complex W aligned f1 f2 t1 t2 n norm method None None None = Ok data /\
    corr_shape data nm true (2 * N - 1).
Proof. intros H0 HC HN. eexists. split; [apply ccorr_complex_call; eassumption|apply complex_shape]. Qed.
Print Assumptions C17_cross_complex_accepted.
Theorem C17_cross_diff_accepted (K : Fld) (W : nat -> Cx K) aligned f1 f2 t1 t2 n norm nm N :
  cross_diff_call f1 f2 t1 t2 n N -> norm_arg_diff true norm nm ->
  exists data, ccorr W aligned f1 f2 t1 t2 n norm (Some "diff") None None None = Ok data /\ diff_shape data nm true N.
Proof. intros HC HN. eexists. split; [apply ccorr_diff_call; eassumption|apply cdiff_shape]. Qed.
Print Assumptions C17_cross_diff_accepted.
Theorem C17_auto_accepted (K : Fld) (W : nat -> Cx K) aligned f t n norm nm method N :
  auto_call W f t n method N -> norm_arg norm nm ->
  exists data datac, acorr W aligned f t None n norm method None = Ok data /\
    acorr_complex W aligned f t None n norm method None = Ok datac /\
    corr_shape data nm false N /\ corr_shape datac nm false N.
Proof.
  intros HC HN. eexists. eexists. split; [apply acorr_call; eassumption|].
  split; [apply acorr_complex_call; eassumption|]. split; [apply auto_shape|apply auto_complex_shape].
Qed.
Print Assumptions C17_auto_accepted.
Theorem C17_auto_diff_accepted (K : Fld) (W : nat -> Cx K) aligned f t n norm nm N :
  auto_diff_call f t n N -> norm_arg_diff false norm nm ->
  exists data, acorr W aligned f t None n norm (Some "diff") None = Ok data /\ diff_shape data nm false N.
Proof. intros HC HN. eexists. split; [eapply acorr_diff_call; eassumption|apply adiff_shape]. Qed.
Print Assumptions C17_auto_diff_accepted.
Example C17_accepted_example :
  match ccorr nW true nf1 nf2 (Some nt1) (Some nt2) (Some 5) (Some 5%Z) (Some "corr") None None None with
  | Ok (DCorr d c None (Some s1) (Some s2)) => Some (c, length d, length s1, length s2) | _ => None
  end = Some ([2; 3; 2; 2; 0], 5, 5, 5) /\
  match ccorr nW true nf1 nf2 (Some nt1) (Some nt2) (Some 5) (Some 2%Z) (Some "corr") None None None with
  | Ok (DCorr d c (Some sq) None None) => Some (length sq) | _ => None
  end = Some 5.
Proof. split; vm_compute; reflexivity. Qed.

(* ------------------------------------------------------------------ *)
(** * C18: norm 5, background subtraction *)
Theorem C18_subtracted (K : Fld) (W : nat -> Cx K) aligned f1 f2 t1 t2 n norm nm method N b1 b2 bg var denoise w :
  cross_call W f1 f2 t1 t2 n method N -> norm_arg norm nm -> In nm [5; 6; 7]%Z -> background bg b1 b2 ->
  (let* data := ccorr W aligned f1 f2 t1 t2 n norm method None None None in
   normalize real_ops denoise data bg var (Some (NInt 5%Z)) "corr" false w) =
  Ok (at_delays N (fun k => pairs_at k (samples f1 t1) (samples f2 t2))
        (fun P => mean P (fun p => cre (prod_about b1 b2 p)))).
Proof.
  intros HC HN HI HB. rewrite (@ccorr_call K W aligned f1 f2 t1 t2 n norm nm method N HC HN). cbn [bind].
  rewrite (@normalize_cross_real K (fun i => pairs_at i (samples f1 t1) (samples f2 t2)) N nm b1 b2 bg var (f0 K) HB); try reflexivity; try discriminate.
  cbn in HI. destruct HI as [<-|[<-|[<-|[]]]]; reflexivity.
Qed.
Print Assumptions C18_subtracted.
Theorem C18_subtracted_complex (K : Fld) (W : nat -> Cx K) aligned f1 f2 t1 t2 n norm nm method N b1 b2 bg var denoise w :
  0 < N -> cross_call W f1 f2 t1 t2 n method N -> norm_arg norm nm -> In nm [5; 6; 7]%Z -> background bg b1 b2 ->
  (let* data := ccorr_complex W aligned f1 f2 t1 t2 n norm method None None None in
   normalize complex_ops denoise data bg var (Some (NInt 5%Z)) "corr" false w) =
  Ok (at_delays (2 * N - 1) (fun i => pairs_signed (lag_at N i) (samples f1 t1) (samples f2 t2))
        (fun P => cmean P (prod_about b1 b2))).
Proof.
  intros H0 HC HN HI HB. rewrite (@ccorr_complex_call K W aligned f1 f2 t1 t2 n norm nm method N H0 HC HN). cbn [bind].
  rewrite (@normalize_cross_complex K (fun i => pairs_signed (lag_at N i) (samples f1 t1) (samples f2 t2)) (2 * N - 1) nm b1 b2 bg var (f0 K) HB); try reflexivity; try discriminate.
  cbn in HI. destruct HI as [<-|[<-|[<-|[]]]]; reflexivity.
Qed.
Print Assumptions C18_subtracted_complex.

(** The same as a statement about two calls: normalizing equals correlating the
    signals from which the backgrounds were subtracted and dividing by the count. *)
Theorem C18_equals_subtracting_first (K : Fld) (W : nat -> Cx K) aligned f1 f2 t1 t2 n norm nm method N b1 b2 bg var denoise w :
  cross_call W f1 f2 t1 t2 n method N -> norm_arg norm nm -> In nm [5; 6; 7]%Z -> background bg b1 b2 ->
  (let* data := ccorr W aligned f1 f2 t1 t2 n norm method None None None in
   normalize real_ops denoise data bg var (Some (NInt 5%Z)) "corr" false w) =
  divided (f0 K) (over K)
    (ccorr W aligned (map (fun x => csub x b1) f1) (map (fun y => csub y b2) f2) t1 t2 n norm method None None None).
Proof.
  intros HC HN HI HB. rewrite (@C18_subtracted K W aligned f1 f2 t1 t2 n norm nm method N b1 b2 bg var denoise w HC HN HI HB).
  rewrite (@ccorr_call K W aligned _ _ t1 t2 n norm nm method N (cross_call_map (fun x => csub x b1) (fun y => csub y b2) HC) HN).
  rewrite divided_real. f_equal. symmetry.
  etransitivity; [apply at_delays_map with (m := fun x => x) (h := PairLemmas.map_pair (on_val (fun x => csub x b1)) (on_val (fun y => csub y b2)))|apply map_fv_id; reflexivity].
  - intros k. apply pairs_at_val.
  - intros Q _. rewrite mean_map. reflexivity.
Qed.
Print Assumptions C18_equals_subtracting_first.
Theorem C18_equals_subtracting_first_complex (K : Fld) (W : nat -> Cx K) aligned f1 f2 t1 t2 n norm nm method N b1 b2 bg var denoise w :
  0 < N -> cross_call W f1 f2 t1 t2 n method N -> norm_arg norm nm -> In nm [5; 6; 7]%Z -> background bg b1 b2 ->
  (let* data := ccorr_complex W aligned f1 f2 t1 t2 n norm method None None None in
   normalize complex_ops denoise data bg var (Some (NInt 5%Z)) "corr" false w) =
  divided (c0 K) (@cover K)
    (ccorr_complex W aligned (map (fun x => csub x b1) f1) (map (fun y => csub y b2) f2) t1 t2 n norm method None None None).
Proof.
  intros H0 HC HN HI HB. rewrite (@C18_subtracted_complex K W aligned f1 f2 t1 t2 n norm nm method N b1 b2 bg var denoise w H0 HC HN HI HB).
  rewrite (@ccorr_complex_call K W aligned _ _ t1 t2 n norm nm method N H0 (cross_call_map (fun x => csub x b1) (fun y => csub y b2) HC) HN).
  rewrite divided_complex. f_equal. symmetry.
  etransitivity; [apply at_delays_map with (m := fun x => x) (h := PairLemmas.map_pair (on_val (fun x => csub x b1)) (on_val (fun y => csub y b2)))|apply map_fv_id; reflexivity].
  - intros k. apply pairs_signed_val.
  - intros Q _. rewrite cmean_map. reflexivity.
Qed.
Print Assumptions C18_equals_subtracting_first_complex.
Theorem C18_auto (K : Fld) (W : nat -> Cx K) aligned f t n norm nm method N b bg var denoise w :
  auto_call W f t n method N -> norm_arg norm nm -> In nm [5; 6; 7]%Z -> (bg = SOne b \/ bg = STwo b b) ->
  (let* data := acorr W aligned f t None n norm method None in
   normalize real_ops denoise data bg var (Some (NInt 5%Z)) "corr" false w) =
  Ok (at_delays N (fun k => upairs_at k (samples f t)) (fun P => mean P (fun p => cre (prod_about b b p)))).
Proof.
  intros HC HN HI HB. rewrite (@acorr_call K W aligned f t n norm nm method N HC HN). cbn [bind].
  rewrite (@normalize_auto_real K (fun i => upairs_at i (samples f t)) N nm b bg var (f0 K) HB); try reflexivity; try discriminate.
  cbn in HI. destruct HI as [<-|[<-|[<-|[]]]]; reflexivity.
Qed.
Print Assumptions C18_auto.
Example C18_example :
  show_all showv (let* data := ccorr nW true nf1 nf2 (Some nt1) (Some nt2) (Some 5) (Some 7%Z) (Some "corr") None None None in
    normalize real_ops idn data (STwo (cz 1 0) (cz 1 1)) SNone (Some (NInt 5%Z)) "corr" false None) =
    Ok [Some (-3, 2); Some (1, 1); Some (0, 1); Some (-3, 2); None]%Z /\
  show_all showcv (let* data := ccorr_complex nW true nf1 nf2 (Some nt1) (Some nt2) (Some 2) (Some 7%Z) (Some "corr") None None None in
    normalize complex_ops idn data (STwo (cz 1 0) (cz 1 1)) SNone (Some (NInt 5%Z)) "corr" false None) =
    Ok [Some (-3, 2, (-2, 1)); Some (0, 1, (0, 1)); Some (3, 2, (-1, 2))]%Z /\
  show_all showv (let* data := acorr nW true nf1 (Some nt1) None (Some 5) (Some 7%Z) None None in
    normalize real_ops idn data (SOne (cz 1 0)) SNone (Some (NInt 5%Z)) "corr" false None) =
    Ok [Some (10, 3); Some (-2, 1); Some (2, 1); Some (0, 1); None]%Z.
Proof. split; [vm_compute; reflexivity|]. split; vm_compute; reflexivity. Qed.

(** For complex autocorrelation the statement fails: acorr keeps one averaged sum of
    the two signals, from which the imaginary part cannot be corrected. *)
Theorem C18_complex_auto_refuted :
  exists (f : list (Cx QcF)) (b : Cx QcF),
    (let* data := acorr_complex nW true f None None (Some 2) (Some 5%Z) None None in
     normalize complex_ops idn data (SOne b) SNone (Some (NInt 5%Z)) "corr" false None) <>
    divided (c0 QcF) (@cover QcF) (acorr_complex nW true (map (fun x => csub x b) f) None None (Some 2) (Some 5%Z) None None).
Proof.
  exists [cz 1 0; cz 2 0], (cz 0 1). intros H.
  apply (f_equal (show_all showcv)) in H. vm_compute in H. discriminate.
Qed.
Print Assumptions C18_complex_auto_refuted.

(* ------------------------------------------------------------------ *)
(** * C19: structured norms *)
Theorem C19_structured_subtracted (K : Fld) (W : nat -> Cx K) aligned f1 f2 t1 t2 n norm nm method N b1 b2 bg var v denoise w :
  cross_call W f1 f2 t1 t2 n method N -> norm_arg norm nm -> In nm [6; 7]%Z -> background bg b1 b2 ->
  scale_factor K var = Ok v ->
  (let* data := ccorr W aligned f1 f2 t1 t2 n norm method None None None in
   normalize real_ops denoise data bg var (Some (NInt 6%Z)) "corr" false w) =
  Ok (at_delays N (fun k => pairs_at k (samples f1 t1) (samples f2 t2))
        (fun P => fsub K v (half K (mean P (sqdiff_about b1 b2))))).
Proof.
  intros HC HN HI HB HV. rewrite (@ccorr_call K W aligned f1 f2 t1 t2 n norm nm method N HC HN). cbn [bind].
  rewrite (@normalize_cross_real K (fun i => pairs_at i (samples f1 t1) (samples f2 t2)) N nm b1 b2 bg var v HB); try reflexivity.
  - cbn in HI. destruct HI as [<-|[<-|[]]]; reflexivity.
  - intros _. exact HV.
Qed.
Print Assumptions C19_structured_subtracted.
Theorem C19_structured (K : Fld) (W : nat -> Cx K) aligned f1 f2 t1 t2 n norm nm method N b1 b2 bg var v denoise w :
  cross_call W f1 f2 t1 t2 n method N -> norm_arg norm nm -> In nm [2; 3; 6; 7]%Z -> background bg b1 b2 ->
  scale_factor K var = Ok v ->
  (let* data := ccorr W aligned f1 f2 t1 t2 n norm method None None None in
   normalize real_ops denoise data bg var (Some (NInt 2%Z)) "corr" false w) =
  Ok (at_delays N (fun k => pairs_at k (samples f1 t1) (samples f2 t2))
        (fun P => fadd K (fsub K v (half K (mean P (@sq_diff K)))) (half K (cnorm2 (csub b1 b2))))).
Proof.
  intros HC HN HI HB HV. rewrite (@ccorr_call K W aligned f1 f2 t1 t2 n norm nm method N HC HN). cbn [bind].
  rewrite (@normalize_cross_real K (fun i => pairs_at i (samples f1 t1) (samples f2 t2)) N nm b1 b2 bg var v HB); try reflexivity.
  - cbn in HI. destruct HI as [<-|[<-|[<-|[<-|[]]]]]; reflexivity.
  - intros _. exact HV.
Qed.
Print Assumptions C19_structured.
(** Complex data: the real part is the same; the imaginary part uses the difference
    between the second signal and the first one multiplied by i. *)
Theorem C19_structured_complex (K : Fld) (W : nat -> Cx K) aligned f1 f2 t1 t2 n norm nm method N b1 b2 bg var v denoise w :
  0 < N -> cross_call W f1 f2 t1 t2 n method N -> norm_arg norm nm -> In nm [6; 7]%Z -> background bg b1 b2 ->
  scale_factor K var = Ok v ->
  (let* data := ccorr_complex W aligned f1 f2 t1 t2 n norm method None None None in
   normalize complex_ops denoise data bg var (Some (NInt 6%Z)) "corr" false w) =
  Ok (at_delays (2 * N - 1) (fun i => pairs_signed (lag_at N i) (samples f1 t1) (samples f2 t2))
        (fun P => (fsub K v (half K (mean P (sqdiff_about b1 b2))), fsub K v (half K (mean P (sqdiff_i_about b1 b2)))))) /\
  (let* data := ccorr_complex W aligned f1 f2 t1 t2 n norm method None None None in
   normalize complex_ops denoise data bg var (Some (NInt 2%Z)) "corr" false w) =
  Ok (at_delays (2 * N - 1) (fun i => pairs_signed (lag_at N i) (samples f1 t1) (samples f2 t2))
        (fun P => (fadd K (fsub K v (half K (mean P (@sq_diff K)))) (half K (cnorm2 (csub b1 b2))),
                   fadd K (fsub K v (half K (mean P (sqdiff_i_about (c0 K) (c0 K)))))
                     (half K (cnorm2 (csub b2 (times_i b1))))))).
Proof.
  intros H0 HC HN HI HB HV. rewrite (@ccorr_complex_call K W aligned f1 f2 t1 t2 n norm nm method N H0 HC HN). cbn [bind].
  split; rewrite (@normalize_cross_complex K (fun i => pairs_signed (lag_at N i) (samples f1 t1) (samples f2 t2)) (2 * N - 1) nm b1 b2 bg var v HB);
    try reflexivity; try (intros _; exact HV); cbn in HI; destruct HI as [<-|[<-|[]]]; reflexivity.
Qed.
Print Assumptions C19_structured_complex.
Theorem C19_auto (K : Fld) (W : nat -> Cx K) aligned f t n norm nm method N b bg var v denoise w z :
  auto_call W f t n method N -> norm_arg norm nm -> In nm [6; 7]%Z -> (bg = SOne b \/ bg = STwo b b) ->
  scale_factor K var = Ok v -> In z [2; 6; 10]%Z ->
  (let* data := acorr W aligned f t None n norm method None in
   normalize real_ops denoise data bg var (Some (NInt z)) "corr" false w) =
  Ok (at_delays N (fun k => upairs_at k (samples f t)) (fun P => fsub K v (half K (mean P (@sq_diff K))))).
Proof.
  intros HC HN HI HB HV HZ. rewrite (@acorr_call K W aligned f t n norm nm method N HC HN). cbn [bind].
  cbn in HZ. destruct HZ as [<-|[<-|[<-|[]]]];
    (rewrite (@normalize_auto_real K (fun i => upairs_at i (samples f t)) N nm b bg var v HB); try reflexivity;
     [cbn in HI; destruct HI as [<-|[<-|[]]]; reflexivity|intros _; exact HV]).
Qed.
Print Assumptions C19_auto.
Example C19_example :
  show_all showv (let* data := ccorr nW true nf1 nf2 (Some nt1) (Some nt2) (Some 5) (Some 7%Z) (Some "corr") None None None in
    normalize real_ops idn data (STwo (cz 1 0) (cz 1 1)) (STwo (q 3) (q 5)) (Some (NInt 6%Z)) "corr" false None) =
    Ok [Some (-1, 2); Some (17, 6); Some (1, 2); Some (-1, 2); None]%Z /\
  show_all showv (let* data := ccorr nW true nf1 nf2 (Some nt1) (Some nt2) (Some 5) (Some 2%Z) (Some "corr") None None None in
    normalize real_ops idn data (STwo (cz 1 0) (cz 1 1)) (SOne (q 4)) (Some (NInt 2%Z)) "corr" false None) =
    Ok [Some (2, 1); Some (5, 2); Some (2, 1); Some (2, 1); None]%Z.
Proof. split; vm_compute; reflexivity. Qed.

(* ------------------------------------------------------------------ *)
(** * C20: compensated norms *)
Theorem C20_compensated (K : Fld) (W : nat -> Cx K) aligned f1 f2 t1 t2 n norm nm method N b1 b2 bg var denoise w :
  cross_call W f1 f2 t1 t2 n method N -> norm_arg norm nm -> In nm [5; 6; 7]%Z -> background bg b1 b2 ->
  (let* data := ccorr W aligned f1 f2 t1 t2 n norm method None None None in
   normalize real_ops denoise data bg var (Some (NInt 9%Z)) "corr" false w) =
  Ok (at_delays N (fun k => pairs_at k (samples f1 t1) (samples f2 t2))
        (fun P => fsub K (mean P (@re_prod K)) (cre (cmul (conj (cmean P (@fst_val K))) (cmean P (@snd_val K)))))).
Proof.
  intros HC HN HI HB. rewrite (@ccorr_call K W aligned f1 f2 t1 t2 n norm nm method N HC HN). cbn [bind].
  rewrite (@normalize_cross_real K (fun i => pairs_at i (samples f1 t1) (samples f2 t2)) N nm b1 b2 bg var (f0 K) HB); try reflexivity; try discriminate.
  cbn in HI. destruct HI as [<-|[<-|[<-|[]]]]; reflexivity.
Qed.
Print Assumptions C20_compensated.
Theorem C20_compensated_complex (K : Fld) (W : nat -> Cx K) aligned f1 f2 t1 t2 n norm nm method N b1 b2 bg var denoise w :
  0 < N -> cross_call W f1 f2 t1 t2 n method N -> norm_arg norm nm -> In nm [5; 6; 7]%Z -> background bg b1 b2 ->
  (let* data := ccorr_complex W aligned f1 f2 t1 t2 n norm method None None None in
   normalize complex_ops denoise data bg var (Some (NInt 9%Z)) "corr" false w) =
  Ok (at_delays (2 * N - 1) (fun i => pairs_signed (lag_at N i) (samples f1 t1) (samples f2 t2))
        (fun P => csub (cmean P (@cx_prod K)) (cmul (conj (cmean P (@fst_val K))) (cmean P (@snd_val K))))).
Proof.
  intros H0 HC HN HI HB. rewrite (@ccorr_complex_call K W aligned f1 f2 t1 t2 n norm nm method N H0 HC HN). cbn [bind].
  rewrite (@normalize_cross_complex K (fun i => pairs_signed (lag_at N i) (samples f1 t1) (samples f2 t2)) (2 * N - 1) nm b1 b2 bg var (f0 K) HB); try reflexivity; try discriminate.
  cbn in HI. destruct HI as [<-|[<-|[<-|[]]]]; reflexivity.
Qed.
Print Assumptions C20_compensated_complex.
Theorem C20_compensated_structured (K : Fld) (W : nat -> Cx K) aligned f1 f2 t1 t2 n norm nm method N b1 b2 bg var v denoise w :
  cross_call W f1 f2 t1 t2 n method N -> norm_arg norm nm -> In nm [6; 7]%Z -> background bg b1 b2 ->
  scale_factor K var = Ok v ->
  (let* data := ccorr W aligned f1 f2 t1 t2 n norm method None None None in
   normalize real_ops denoise data bg var (Some (NInt 10%Z)) "corr" false w) =
  Ok (at_delays N (fun k => pairs_at k (samples f1 t1) (samples f2 t2))
        (fun P => fsub K v (half K (fsub K (mean P (@sq_diff K)) (cnorm2 (csub (cmean P (@fst_val K)) (cmean P (@snd_val K)))))))).
Proof.
  intros HC HN HI HB HV. rewrite (@ccorr_call K W aligned f1 f2 t1 t2 n norm nm method N HC HN). cbn [bind].
  rewrite (@normalize_cross_real K (fun i => pairs_at i (samples f1 t1) (samples f2 t2)) N nm b1 b2 bg var v HB); try reflexivity.
  - cbn in HI. destruct HI as [<-|[<-|[]]]; reflexivity.
  - intros _. exact HV.
Qed.
Print Assumptions C20_compensated_structured.
Theorem C20_compensated_structured_complex (K : Fld) (W : nat -> Cx K) aligned f1 f2 t1 t2 n norm nm method N b1 b2 bg var v denoise w :
  0 < N -> cross_call W f1 f2 t1 t2 n method N -> norm_arg norm nm -> In nm [6; 7]%Z -> background bg b1 b2 ->
  scale_factor K var = Ok v ->
  (let* data := ccorr_complex W aligned f1 f2 t1 t2 n norm method None None None in
   normalize complex_ops denoise data bg var (Some (NInt 10%Z)) "corr" false w) =
  Ok (at_delays (2 * N - 1) (fun i => pairs_signed (lag_at N i) (samples f1 t1) (samples f2 t2))
        (fun P => (fsub K v (half K (fsub K (mean P (@sq_diff K)) (cnorm2 (csub (cmean P (@fst_val K)) (cmean P (@snd_val K)))))),
                   fsub K v (half K (fsub K (mean P (sqdiff_i_about (c0 K) (c0 K)))
                                       (cnorm2 (csub (cmean P (@snd_val K)) (times_i (cmean P (@fst_val K)))))))))).
Proof.
  intros H0 HC HN HI HB HV. rewrite (@ccorr_complex_call K W aligned f1 f2 t1 t2 n norm nm method N H0 HC HN). cbn [bind].
  rewrite (@normalize_cross_complex K (fun i => pairs_signed (lag_at N i) (samples f1 t1) (samples f2 t2)) (2 * N - 1) nm b1 b2 bg var v HB); try reflexivity.
  - cbn in HI. destruct HI as [<-|[<-|[]]]; reflexivity.
  - intros _. exact HV.
Qed.
Print Assumptions C20_compensated_structured_complex.
(** Autocorrelation: the mean of both samples of each pair is used. *)
Theorem C20_auto (K : Fld) (W : nat -> Cx K) aligned f t n norm nm method N b bg var denoise w :
  auto_call W f t n method N -> norm_arg norm nm -> In nm [5; 6; 7]%Z -> (bg = SOne b \/ bg = STwo b b) ->
  (let* data := acorr W aligned f t None n norm method None in
   normalize real_ops denoise data bg var (Some (NInt 9%Z)) "corr" false w) =
  Ok (at_delays N (fun k => upairs_at k (samples f t))
        (fun P => fsub K (mean P (@re_prod K)) (cnorm2 (cmean P (fun p => ahalf (cgrp K) (cadd (fst_val p) (snd_val p))))))).
Proof.
  intros HC HN HI HB. rewrite (@acorr_call K W aligned f t n norm nm method N HC HN). cbn [bind].
  rewrite (@normalize_auto_real K (fun i => upairs_at i (samples f t)) N nm b bg var (f0 K) HB); try reflexivity; try discriminate.
  cbn in HI. destruct HI as [<-|[<-|[<-|[]]]]; reflexivity.
Qed.
Print Assumptions C20_auto.
Example C20_example :
  show_all showv (let* data := ccorr nW true nf1 nf2 (Some nt1) (Some nt2) (Some 5) (Some 7%Z) (Some "corr") None None None in
    normalize real_ops idn data (SOne (cz 0 0)) (SOne (q 4)) (Some (NInt 9%Z)) "corr" false None) =
    Ok [Some (0, 1); Some (2, 9); Some (1, 1); Some (0, 1); None]%Z /\
  show_all showv (let* data := ccorr nW true nf1 nf2 (Some nt1) (Some nt2) (Some 5) (Some 6%Z) (Some "corr") None None None in
    normalize real_ops idn data (SOne (cz 0 0)) (SOne (q 4)) (Some (NInt 10%Z)) "corr" false None) =
    Ok [Some (11, 4); Some (34, 9); Some (11, 4); Some (11, 4); None]%Z.
Proof. split; vm_compute; reflexivity. Qed.
