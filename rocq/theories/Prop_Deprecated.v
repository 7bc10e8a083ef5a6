(** C101: Deprecated names and the warnings of the user. *)
From Coq Require Import String.
From Verif Require Import Base Ordered Kernels MapModel SectorModel Fft2Model DeprecatedModel Examples.
Open Scope string_scope.
Open Scope nat_scope.
Open Scope list_scope.
Set Implicit Arguments.

(** No registry is newer than the filters (true at the start, and kept by every warning and by every change of the filters: C101_consistent). *)
Definition consistent (w : world) : Prop := forall m, fst (registry w m) <= version w.
(** The warning of the name [name], as it is documented: "a warning being emitted when the function is used" *)
Definition notice (name info module : string) (line : nat) : warning :=
  Warning ("Call to deprecated function " ++ name ++ ". " ++ info)%string "DeprecationWarning" module line.
Definition dep : string := "DeprecationWarning".

Section Deprecated.
  Variable issub : string -> string -> bool.
  Variables message_match module_match : nat -> string -> bool.
  Hypothesis refl : issub dep dep = true.
  Notation warn := (warn issub message_match module_match).
  Notation deprecated := (deprecated issub message_match module_match).

  Lemma with_keys_consistent x keys w : consistent w -> consistent (with_keys x keys w).
  Proof. intros H m. cbn. destruct (String.eqb m (w_module x)); cbn; [lia|apply H]. Qed.
  (** Warnings and changes of filters keep the state consistent. *)
  Theorem C101_consistent x a c w : consistent w -> consistent (snd (warn x w)) /\ consistent (simplefilter a c w).
  Proof.
    intros H. split; [|intros m; specialize (H m); cbn; lia]. pose proof (with_keys_consistent x (current x w) H) as H1. unfold DeprecatedModel.warn.
    destruct (existsb _ (current x w)); [exact H1|]. destruct (choose_action _ _ _ _ _); cbn [snd]; try exact H1.
    - exact (with_keys_consistent x _ H1).
    - destruct (existsb _ (_ :: _)); cbn [snd]; exact (with_keys_consistent x _ H1).
    - destruct (existsb _ _); cbn [snd]; exact (with_keys_consistent x _ H1).
  Qed.
  (** Directly after a change of the filters no warning is held back by a registry. *)
  Lemma current_new x a c w : consistent w -> current x (simplefilter a c w) = [].
  Proof. intros H. unfold current. cbn [simplefilter registry version]. specialize (H (w_module x)). destruct (registry w (w_module x)) as [v keys]. cbn [fst] in H. replace (Nat.eqb v (S (version w))) with false by (symmetry; apply Nat.eqb_neq; lia). reflexivity. Qed.
  Lemma simple_matches a x : issub (w_category x) dep = true -> matches issub message_match module_match x (Filt a None dep None 0) = true.
  Proof. intros H. unfold matches. cbn. rewrite H. reflexivity. Qed.
  Lemma warn_new x a w : consistent w -> issub (w_category x) dep = true -> a = Always \/ a = Default ->
    exists w', warn x (simplefilter a dep w) = (false, w') /\ seen_warnings w' = seen_warnings w ++ [x] /\ filters w' = filters (simplefilter a dep w) /\ version w' = S (version w) /\ consistent w' /\ onces w' = onces w.
  Proof.
    intros H Hx Ha. pose proof (proj2 (C101_consistent x a dep H)) as HC. assert (E : forall k, choose_action issub message_match module_match x (filters (with_keys x k (simplefilter a dep w))) = a).
    { intros k. unfold choose_action. cbn [with_keys simplefilter filters find]. rewrite simple_matches by exact Hx. reflexivity. }
    pose proof (@C101_consistent x a dep (simplefilter a dep w) HC) as [C _].
    unfold DeprecatedModel.warn in *. rewrite current_new in * by exact H. cbn [existsb] in *. rewrite E in *.
    destruct Ha as [-> | ->]; eexists; (split; [reflexivity|]); cbn [snd] in C; repeat split; exact C.
  Qed.

  Definition after_call (fs : list filt) : list filt := filters (simplefilter Default dep (simplefilter Always dep (World fs 0 (fun _ => (0, [])) [] []))).
  (** A call of a deprecated name: the warning is shown, at every call and whatever the filters of the user are, it is never raised
      as an exception, and then the function is called. *)
  Theorem C101_call A info name (func : world -> outcome A * world) module line w : consistent w ->
    exists w', deprecated info name func module line w = func w' /\ seen_warnings w' = seen_warnings w ++ [notice name info module line] /\ consistent w' /\
      filters w' = after_call (filters w) /\ onces w' = onces w.
  Proof.
    intros H. unfold DeprecatedModel.deprecated. fold dep. destruct (@warn_new (notice name info module line) Always w H refl (or_introl eq_refl)) as (w' & E & S & F & V & C & O).
    unfold notice in E. fold dep in E. rewrite E. cbn iota. eexists. split; [reflexivity|]. split; [exact S|]. split; [apply (C101_consistent (notice name info module line)); exact C|].
    split; [|exact O]. unfold after_call. cbn [simplefilter filters]. rewrite F. reflexivity.
  Qed.
  (** The result is that of the function with the new name. *)
  Theorem C101_same A info name (r : res A) module line w : consistent w ->
    fst (deprecated info name (quiet r) module line w) = Returned r /\
    seen_warnings (snd (deprecated info name (quiet r) module line w)) = seen_warnings w ++ [notice name info module line].
  Proof. intros H. destruct (@C101_call A info name (quiet r) module line w H) as (w' & -> & S & _). split; [reflexivity|exact S]. Qed.

  (** The names of fft.py and map.py *)
  Theorem C101_names (K : Fld) (W : nat -> Cx K) junk video cvideo kimax kjmax (Ko : OFld) (pi : Ko) floor kmap anglemap (angle sector kstep : Ko) module line w : consistent w ->
    (fst (old_rfft2 issub message_match module_match W junk video kimax kjmax module line w) = Returned (Ok (rfft2_video W junk video kimax kjmax)) /\
     seen_warnings (snd (old_rfft2 issub message_match module_match W junk video kimax kjmax module line w)) = seen_warnings w ++ [notice "rfft2" "This function was renamed to rfft2_video" module line]) /\
    (fst (old_fft2 issub message_match module_match W junk cvideo kimax kjmax module line w) = Returned (Ok (fft2_video W junk cvideo kimax kjmax)) /\
     seen_warnings (snd (old_fft2 issub message_match module_match W junk cvideo kimax kjmax module line w)) = seen_warnings w ++ [notice "fft2" "This function was renamed to fft2_video" module line]) /\
    (fst (old_sector_indexmap issub message_match module_match Ko pi floor kmap anglemap angle sector kstep module line w) = Returned (sector_indexmap Ko pi floor kmap anglemap angle sector kstep) /\
     seen_warnings (snd (old_sector_indexmap issub message_match module_match Ko pi floor kmap anglemap angle sector kstep module line w)) = seen_warnings w ++ [notice "sector_indexmap" "Use fft2_sector_indexmap instead." module line]).
  Proof. intros H. split; [|split]; apply C101_same; exact H. Qed.
  (** k_indexmap gives two warnings, the second one about a line of map.py, not of the user. *)
  Theorem C101_k_indexmap (Ko : OFld) (pi : Ko) floor hyp arg kisize kjsize (angle sector kstep : Ko) shape module line w : consistent w ->
    fst (old_k_indexmap issub message_match module_match Ko pi floor hyp arg kisize kjsize angle sector kstep shape module line w) =
      Returned (let* (kmap, anglemap) := rfft2_kangle Ko hyp arg (Some kisize) (Some kjsize) shape in sector_indexmap Ko pi floor kmap anglemap angle sector kstep) /\
    seen_warnings (snd (old_k_indexmap issub message_match module_match Ko pi floor hyp arg kisize kjsize angle sector kstep shape module line w)) =
      seen_warnings w ++ notice "k_indexmap" "Use fft2_k_indexmap instead." module line ::
        match rfft2_kangle Ko hyp arg (Some kisize) (Some kjsize) shape with Ok _ => [notice "sector_indexmap" "Use fft2_sector_indexmap instead." "cddm.map" 373] | Raise _ => [] end.
  Proof.
    intros H. unfold old_k_indexmap. match goal with |- context [DeprecatedModel.deprecated _ _ _ ?i ?n ?f] => destruct (@C101_call _ i n f module line w H) as (w' & -> & S & C & _) end.
    destruct (rfft2_kangle _ _ _ _ _ _) as [[kmap anglemap]|e]; cbn [bind fst snd].
    - destruct (@C101_same _ "Use fft2_sector_indexmap instead." "sector_indexmap" (sector_indexmap Ko pi floor kmap anglemap angle sector kstep) "cddm.map" 373 w' C) as [A B].
      unfold old_sector_indexmap. rewrite A, B, S, <- app_assoc. split; reflexivity.
    - split; [reflexivity|exact S].
  Qed.

  Lemma remove_default fs : after_call fs = Filt Default None dep None 0 :: Filt Always None dep None 0 :: remove_first (Filt Default None dep None 0) (remove_first (Filt Always None dep None 0) fs).
  Proof. reflexivity. Qed.
  (** The filters are changed by the first call only: the list does not grow with the calls. *)
  Theorem C101_settled A info name (r : res A) module line info' name' (r' : res A) module' line' w : consistent w ->
    let w1 := snd (deprecated info name (quiet r) module line w) in
    filters (snd (deprecated info' name' (quiet r') module' line' w1)) = filters w1 /\ length (filters w1) <= length (filters w) + 2.
  Proof.
    intros H w1. subst w1. destruct (@C101_call A info name (quiet r) module line w H) as (w1 & -> & _ & C & F & _). cbn [quiet snd].
    destruct (@C101_call A info' name' (quiet r') module' line' w1 C) as (w2 & -> & _ & _ & F2 & _). cbn [quiet snd]. rewrite F2, F. split; [rewrite remove_default; reflexivity|].
    assert (L : forall x l, length (remove_first x l) <= length l) by (intros x l; induction l as [|y l IH]; [reflexivity|]; cbn; destruct (filt_eqb y x); cbn; lia).
    rewrite remove_default. cbn [length]. pose proof (L (Filt Default None dep None 0) (remove_first (Filt Always None dep None 0) (filters w))). pose proof (L (Filt Always None dep None 0) (filters w)). lia.
  Qed.
  (** After a call the filters of the user for deprecation warnings are without effect: the next warning of this kind, of whatever library,
      is shown and not raised. *)
  Theorem C101_overrides A info name (r : res A) module line w y : consistent w -> issub (w_category y) dep = true ->
    exists w', warn y (snd (deprecated info name (quiet r) module line w)) = (false, w') /\ seen_warnings w' = seen_warnings w ++ [notice name info module line; y].
  Proof.
    intros H Hy. unfold DeprecatedModel.deprecated. fold dep. destruct (@warn_new (notice name info module line) Always w H refl (or_introl eq_refl)) as (w' & E & S & F & V & C & O).
    unfold notice in E. fold dep in E. rewrite E. cbn iota. cbn [quiet snd]. destruct (@warn_new y Default w' C Hy (or_intror eq_refl)) as (w2 & E2 & S2 & _). exists w2. split; [exact E2|]. rewrite S2, S, <- app_assoc. reflexivity.
  Qed.
  (** A warning is raised exactly if it is not held back by the registry of its module and the first filter that matches all of its parts is an error;
      it is shown by "always" at every time, and not at all by "ignore". *)
  Definition fits (x : warning) (f : filt) : Prop :=
    (forall p, f_message f = Some p -> message_match p (w_text x) = true) /\ issub (w_category x) (f_category f) = true /\
    (forall p, f_module f = Some p -> module_match p (w_module x) = true) /\ (f_line f = 0 \/ f_line f = w_line x).
  Lemma matches_fits x f : matches issub message_match module_match x f = true <-> fits x f.
  Proof.
    unfold matches, fits. rewrite !andb_true_iff, orb_true_iff, !Nat.eqb_eq. split.
    - intros (((H1 & H2) & H3) & H4). split; [intros p E; rewrite E in H1; exact H1|]. split; [exact H2|]. split; [intros p E; rewrite E in H3; exact H3|exact H4].
    - intros (H1 & H2 & H3 & H4). split; [split; [split|]|]; [|exact H2| |exact H4].
      + destruct (f_message f) as [p|]; [apply H1|]; reflexivity.
      + destruct (f_module f) as [p|]; [apply H3|]; reflexivity.
  Qed.
  (** The action: that of the first filter that fits, "default" if there is none *)
  Definition decided (x : warning) (fs : list filt) (a : action) : Prop :=
    (exists l1 f l2, fs = l1 ++ f :: l2 /\ fits x f /\ f_action f = a /\ forall g, In g l1 -> ~ fits x g) \/ ((forall g, In g fs -> ~ fits x g) /\ a = Default).
  Lemma choose_decided x fs : decided x fs (choose_action issub message_match module_match x fs).
  Proof.
    unfold choose_action. induction fs as [|f fs IH]; [right; split; [intros g []|reflexivity]|]. cbn [find]. destruct (matches _ _ _ x f) eqn:E.
    - left. exists [], f, fs. split; [reflexivity|]. split; [apply matches_fits; exact E|]. split; [reflexivity|intros g []].
    - assert (N : ~ fits x f) by (intros H; apply matches_fits in H; congruence). destruct IH as [(l1 & g & l2 & -> & H1 & H2 & H3)|(H1 & H2)].
      + left. exists (f :: l1), g, l2. split; [reflexivity|]. split; [exact H1|]. split; [exact H2|]. intros g' [<-|Hg]; [exact N|apply H3; exact Hg].
      + right. split; [|exact H2]. intros g [<-|Hg]; [exact N|apply H1; exact Hg].
  Qed.
  Lemma decided_unique x fs a b : decided x fs a -> decided x fs b -> a = b.
  Proof using.
    clear refl. intros Ha Hb. induction fs as [|f fs IH].
    - destruct Ha as [(l1 & f & l2 & E & _)|(_ & ->)]; [destruct l1; discriminate|]. destruct Hb as [(l1 & f & l2 & E & _)|(_ & ->)]; [destruct l1; discriminate|reflexivity].
    - assert (Q : forall c, decided x (f :: fs) c -> (fits x f /\ c = f_action f) \/ (~ fits x f /\ decided x fs c)).
      { intros c [(l1 & g & l2 & E & H1 & H2 & H3)|(H1 & H2)].
        - destruct l1 as [|g' l1]; injection E as -> ->; [left; auto|]. right. split; [apply H3; left; reflexivity|]. left. exists l1, g, l2. split; [reflexivity|]. split; [exact H1|]. split; [exact H2|]. intros; apply H3; right; assumption.
        - right. split; [apply H1; left; reflexivity|]. right. split; [intros; apply H1; right; assumption|exact H2]. }
      destruct (Q a Ha) as [[F ->]|[F Da]], (Q b Hb) as [[F' ->]|[F' Db]]; try contradiction; auto.
  Qed.
  Theorem C101_filters x w a : decided x (filters w) a -> In (w_text x, w_category x, w_line x) (current x w) \/
    (fst (warn x w) = true <-> a = Error) /\ (a = Always \/ a = Default -> seen_warnings (snd (warn x w)) = seen_warnings w ++ [x]) /\ (a = Ignore \/ a = Error -> seen_warnings (snd (warn x w)) = seen_warnings w).
  Proof.
    intros D. destruct (existsb (key_eqb (w_text x, w_category x, w_line x)) (current x w)) eqn:E.
    - left. apply existsb_exists in E. destruct E as (((t & c) & n) & I & E). cbn [key_eqb] in E. rewrite !andb_true_iff, !String.eqb_eq, Nat.eqb_eq in E. destruct E as ((-> & ->) & ->). exact I.
    - right. unfold DeprecatedModel.warn. rewrite E. cbn [with_keys filters]. rewrite (decided_unique (choose_decided x (filters w)) D).
      destruct a; cbn [fst snd]; try (split; [split; intros; congruence|split; [intros [H|H]; try discriminate H; reflexivity|intros [H|H]; try discriminate H; reflexivity]]).
      + match goal with |- context [if ?c then _ else _] => destruct c end; cbn [fst snd]; (split; [split; intros H; discriminate H|split; intros [H|H]; discriminate H]).
      + match goal with |- context [if ?c then _ else _] => destruct c end; cbn [fst snd]; (split; [split; intros H; discriminate H|split; intros [H|H]; discriminate H]).
  Qed.
End Deprecated.
Print Assumptions C101_filters.
Print Assumptions C101_consistent.
Print Assumptions C101_call.
Print Assumptions C101_same.
Print Assumptions C101_names.
Print Assumptions C101_k_indexmap.
Print Assumptions C101_settled.
Print Assumptions C101_overrides.

(** "reset filter": the filters are not those from before the call.  With python -W error the deprecation warnings of another library are
    exceptions before a call and only printed after it; with -W ignore they are silent before and printed after it. *)
Theorem C101_reset_refuted : exists issub mm dm (strict silent : world) (y : warning), issub dep dep = true /\ consistent strict /\ consistent silent /\
  let call := deprecated issub mm dm "This function was renamed to rfft2_video" "rfft2" (quiet (Ok tt)) "user" 7 in
  fst (warn issub mm dm y strict) = true /\ fst (warn issub mm dm y (snd (call strict))) = false /\
  seen_warnings (snd (warn issub mm dm y silent)) = [] /\ seen_warnings (snd (warn issub mm dm y (snd (call silent)))) = [notice "rfft2" "This function was renamed to rfft2_video" "user" 7; y].
Proof.
  exists String.eqb, (fun _ _ => false), (fun _ _ => false), (World [Filt Error None dep None 0] 1 (fun _ => (0, [])) [] []), (World [Filt Ignore None dep None 0] 1 (fun _ => (0, [])) [] []), (Warning "old" dep "other" 3).
  split; [reflexivity|]. split; [intros m; cbn; lia|]. split; [intros m; cbn; lia|]. vm_compute. repeat split.
Qed.
Print Assumptions C101_reset_refuted.

(** skip_runtime_error: the value of the callback, nothing after a RuntimeError; every other exception is passed on. *)
Theorem C101_skip (V E Exc : Type) (is_runtime_error : Exc -> bool) (f : E -> V + Exc) event :
  (forall v, f event = inl v -> skip_runtime_error is_runtime_error f event = inl (Some v)) /\
  (forall e, f event = inr e -> is_runtime_error e = true -> skip_runtime_error is_runtime_error f event = inl None) /\
  (forall e, f event = inr e -> is_runtime_error e = false -> skip_runtime_error is_runtime_error f event = inr e).
Proof. unfold skip_runtime_error. repeat split; intros; repeat match goal with H : _ = _ |- _ => rewrite H; clear H end; reflexivity. Qed.
Print Assumptions C101_skip.

(** The start of Python (no registries): two calls from one line are two warnings, and a filter of the user is kept behind the two new ones. *)
Definition start : world := World [Filt Ignore None "ImportWarning" None 0; Filt Default None dep (Some 1) 0] 2 (fun _ => (0, [])) [] [].
Definition call1 := deprecated String.eqb (fun _ _ => false) (fun _ m => String.eqb m "__main__") "This function was renamed to rfft2_video" "rfft2" (quiet (Ok tt)) "user" 7.
Example C101_example : consistent start /\ seen_warnings (snd (call1 (snd (call1 start)))) = [notice "rfft2" "This function was renamed to rfft2_video" "user" 7; notice "rfft2" "This function was renamed to rfft2_video" "user" 7] /\
  length (filters (snd (call1 start))) = 4 /\ filters (snd (call1 (snd (call1 start)))) = filters (snd (call1 start)) /\ w_text (notice "rfft2" "This function was renamed to rfft2_video" "user" 7) = "Call to deprecated function rfft2. This function was renamed to rfft2_video".
Proof. split; [intros m; cbn; lia|]. vm_compute. repeat split. Qed.
