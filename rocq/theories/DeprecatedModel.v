(** Model of the decorators of cddm/decorators.py (skip_runtime_error, deprecated) and of the deprecated names of fft.py and map.py. *)
From Coq Require Import String.
From Verif Require Import Base Ordered MapModel SectorModel Fft2Model.
Open Scope string_scope.
Open Scope list_scope.
Set Implicit Arguments.

(** * The warnings of the Python library *)
Inductive action := Error | Ignore | Always | Default | Module | Once.
Definition action_eqb (a b : action) : bool :=
  match a, b with Error, Error | Ignore, Ignore | Always, Always | Default, Default | Module, Module | Once, Once => true | _, _ => false end.
(** An entry of warnings.filters: patterns of the message and of the module are numbers, a line of zero is any line *)
Record filt := Filt { f_action : action; f_message : option nat; f_category : string; f_module : option nat; f_line : nat }.
(** What warnings.warn knows: the text, the category and the place of the call (the module and the line) *)
Record warning := Warning { w_text : string; w_category : string; w_module : string; w_line : nat }.
(** The state: warnings.filters with the version that is increased at every change, the registries of the modules (each with the
    version for which it is valid), the registry of the action "once", and what was shown *)
Record world := World { filters : list filt; version : nat; registry : string -> nat * list (string * string * nat); onces : list (string * string); seen_warnings : list warning }.

Definition opt_eqb (a b : option nat) : bool := match a, b with None, None => true | Some a, Some b => Nat.eqb a b | _, _ => false end.
Definition filt_eqb (a b : filt) : bool :=
  action_eqb (f_action a) (f_action b) && opt_eqb (f_message a) (f_message b) && String.eqb (f_category a) (f_category b) && opt_eqb (f_module a) (f_module b) && Nat.eqb (f_line a) (f_line b).
Definition key_eqb (a b : string * string * nat) : bool :=
  let '(t, c, l) := a in let '(t', c', l') := b in String.eqb t t' && String.eqb c c' && Nat.eqb l l'.
(** list.remove: the first entry that is equal *)
Fixpoint remove_first (x : filt) (l : list filt) : list filt :=
  match l with [] => [] | y :: l => if filt_eqb y x then l else y :: remove_first x l end.
(** warnings.simplefilter(action, category), of the library: a filter without patterns is put before all others *)
Definition simplefilter (a : action) (category : string) (w : world) : world :=
  let item := Filt a None category None 0 in
  World (item :: remove_first item (filters w)) (S (version w)) (registry w) (onces w) (seen_warnings w).

Section Warnings.
  (** issubclass for categories, the match of the patterns *)
  Variable issub : string -> string -> bool.
  Variables message_match module_match : nat -> string -> bool.
  Definition matches (x : warning) (f : filt) : bool :=
    match f_message f with None => true | Some p => message_match p (w_text x) end && issub (w_category x) (f_category f) &&
    match f_module f with None => true | Some p => module_match p (w_module x) end && (Nat.eqb (f_line f) 0 || Nat.eqb (f_line f) (w_line x)).
  Definition choose_action (x : warning) (fs : list filt) : action := match find (matches x) fs with Some f => f_action f | None => Default end.
  (** The registry of the module of the warning, emptied if the filters were changed *)
  Definition current (x : warning) (w : world) : list (string * string * nat) :=
    let (v, keys) := registry w (w_module x) in if Nat.eqb v (version w) then keys else [].
  Definition with_keys (x : warning) (keys : list (string * string * nat)) (w : world) : world :=
    World (filters w) (version w) (fun m => if String.eqb m (w_module x) then (version w, keys) else registry w m) (onces w) (seen_warnings w).
  Definition show (x : warning) (w : world) : world := World (filters w) (version w) (registry w) (onces w) (seen_warnings w ++ [x]).
  (** warnings.warn of the library (warn_explicit): the state after it, and whether the warning is raised as an exception *)
  Definition warn (x : warning) (w : world) : bool * world :=
    let keys := current x w in
    let w := with_keys x keys w in
    let key := (w_text x, w_category x, w_line x) in
    if existsb (key_eqb key) keys then (false, w) else
    match choose_action x (filters w) with
    | Ignore => (false, w)
    | Error => (true, w)
    | Once => let w := with_keys x (key :: keys) w in
        if existsb (fun o => String.eqb (fst o) (w_text x) && String.eqb (snd o) (w_category x)) (onces w) then (false, w)
        else (false, show x (World (filters w) (version w) (registry w) ((w_text x, w_category x) :: onces w) (seen_warnings w)))
    | Always => (false, show x w)
    | Module => let all := (w_text x, w_category x, 0) in
        if existsb (key_eqb all) (key :: keys) then (false, with_keys x (key :: keys) w) else (false, show x (with_keys x (all :: key :: keys) w))
    | Default => (false, show x (with_keys x (key :: keys) w))
    end.

  (** * decorators.py *)
  (** What a call gives: a value or an exception of the function, or the warning raised as an exception *)
  Inductive outcome (A : Type) := Returned (r : res A) | Warned (x : warning).
  (** deprecated(info), decorators.py 80-96, of the function [func] named [name], called from the line [line] of the module [module] *)
  Definition deprecated (A : Type) (info name : string) (func : world -> outcome A * world) (module : string) (line : nat) (w : world) : outcome A * world :=
    let w := simplefilter Always "DeprecationWarning" w in
    let x := Warning ("Call to deprecated function " ++ name ++ ". " ++ info)%string "DeprecationWarning" module line in
    let (raised, w) := warn x w in
    if raised then (Warned A x, w) else
    let w := simplefilter Default "DeprecationWarning" w in
    func w.
  (** A function that gives no warnings *)
  Definition quiet (A : Type) (r : res A) (w : world) : outcome A * world := (Returned r, w).

  (** ** The deprecated names *)
  Section Names.
    Variable K : Fld.
    Variable W : nat -> Cx K.
    Variable junk : nat -> nat -> Cx K.
    (** rfft2, fft.py 329-331: the generator of rfft2_video *)
    Definition old_rfft2 video kimax kjmax := deprecated "This function was renamed to rfft2_video" "rfft2" (quiet (Ok (rfft2_video W junk video kimax kjmax))).
    (** fft2, fft.py 333-335 *)
    Definition old_fft2 video kimax kjmax := deprecated "This function was renamed to fft2_video" "fft2" (quiet (Ok (fft2_video W junk video kimax kjmax))).
  End Names.
  Section Maps.
    Variable K : OFld.
    Variable pi : K.
    Variable floor : K -> Z.
    Variables hyp arg : K -> K -> K.
    (** sector_indexmap as it is called, map.py 39-101 *)
    Definition old_sector_indexmap kmap anglemap angle sector kstep :=
      deprecated "Use fft2_sector_indexmap instead." "sector_indexmap" (quiet (sector_indexmap K pi floor kmap anglemap angle sector kstep)).
    (** k_indexmap, map.py 345-374: it calls the deprecated sector_indexmap in line 373 of map.py *)
    Definition old_k_indexmap (kisize kjsize : Z) (angle sector kstep : K) (shape : option (Z * Z)) :=
      deprecated "Use fft2_k_indexmap instead." "k_indexmap" (fun w =>
        match rfft2_kangle K hyp arg (Some kisize) (Some kjsize) shape with
        | Raise e => (Returned (Raise e), w)
        | Ok (kmap, anglemap) => old_sector_indexmap kmap anglemap angle sector kstep "cddm.map" 373 w
        end).
  End Maps.
End Warnings.

(** skip_runtime_error, decorators.py 71-78: [f event] gives a value or an exception, which is a RuntimeError or not *)
Definition skip_runtime_error (V E Exc : Type) (is_runtime_error : Exc -> bool) (f : E -> V + Exc) (event : E) : option V + Exc :=
  match f event with
  | inl v => inl (Some v)
  | inr e => if is_runtime_error e then inl None else inr e
  end.
