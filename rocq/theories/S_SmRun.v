(** Executions of a state machine, and how its log is read. *)
From Verif Require Import Base M_Sm S_Sm S_SmWf.

(** What an application does with a machine: [rkh_sm_init], [rkh_sm_dispatch]
    once the machine has a state, [rkh_sm_clear_history].  Every call finds
    arbitrary values in the two work arrays. *)
Definition arrays := nat -> list nat * list (option nat).
Definition arrays_ok (c : smcfg) (ars : arrays) : Prop :=
  forall k, length (fst (ars k)) = sm_segs c /\ length (snd (ars k)) = sm_depth c.
Inductive smop := OInit (ars : arrays) | ODisp (pe : evt) (ars : arrays) | OClear (h : nat).
Definition smop_ok (c : smcfg) (op : smop) : Prop :=
  match op with OInit ars | ODisp _ ars => arrays_ok c ars | OClear _ => True end.
Definition sm_do (c : smcfg) (M : machine) (grd : nat -> evt -> list xev -> bool) (fuel istate : nat) (iact : option nat)
    (d : dyn) (op : smop) : res dyn :=
  match op with
  | OInit ars => do (d', _) <- sm_init c M grd fuel istate iact d ars; Ok d'
  | ODisp pe ars =>
    match d_st d with
    | None => Ok d
    | Some _ => do (d', _) <- dispatch c M grd fuel istate iact d pe ars; Ok d'
    end
  | OClear h => Ok (clear_history d h)
  end.
Fixpoint sm_run (c : smcfg) (M : machine) (grd : nat -> evt -> list xev -> bool) (fuel istate : nat) (iact : option nat)
    (d : dyn) (ops : list smop) : res dyn :=
  match ops with
  | [] => Ok d
  | op :: r => do d1 <- sm_do c M grd fuel istate iact d op; sm_run c M grd fuel istate iact d1 r
  end.

(** Events one after another, with what the calls return. *)
Fixpoint feed (c : smcfg) (M : machine) (grd : nat -> evt -> list xev -> bool) (fuel istate : nat) (iact : option nat)
    (d : dyn) (evs : list (evt * arrays)) : res (dyn * list rcode) :=
  match evs with
  | [] => Ok (d, [])
  | (pe, ars) :: r =>
    do (d1, e) <- dispatch c M grd fuel istate iact d pe ars;
    do (d2, es) <- feed c M grd fuel istate iact d1 r;
    Ok (d2, e :: es)
  end.

(** The outcome of a call is defined: a result, the step bound of the model, or
    the assertion that a transition has too many segments. *)
Definition seg_lines : list nat := [523; 566; 605; 633; 646; 659].
Definition safe (c : smcfg) {A} (r : res A) : Prop :=
  match r with
  | Ok _ => True
  | Fault FFuel => True
  | Fault (FAssert n) => sm_asrt c = true /\ In n seg_lines
  | Fault (FUB _) => False
  end.

(** Readings of the log. *)
Definition exited (x : list xev) : list nat := flat_map (fun e => match e with XExit s _ => [s] | _ => [] end) x.
Definition entered (x : list xev) : list nat := flat_map (fun e => match e with XEntry s _ => [s] | _ => [] end) x.
Definition only_guards (x : list xev) : Prop := Forall (fun e => match e with XGrd _ _ _ => True | _ => False end) x.
Fixpoint last_such (f : nat -> bool) (l : list nat) : option nat :=
  match l with
  | [] => None
  | s :: r => match last_such f r with Some t => Some t | None => if f s then Some s else None end
  end.
Definition states (x : list xev) : list nat := flat_map (fun e => match e with XState s => [s] | _ => [] end) x.
Definition child_of (M : machine) (q s : nat) : bool :=
  match parent_of M s with Some (Some p) => (p =? q)%nat | _ => false end.
(** The direct substate of [q] exited last. *)
Definition last_exit (M : machine) (q : nat) (x : list xev) : option nat := last_such (child_of M q) (exited x).
(** The state arrived at last. *)
Definition last_state (x : list xev) : option nat := last_such (fun _ => true) (states x).

(** Each referenced submachine is used by one submachine state. *)
Definition user_of (M : machine) (r : nat) : option nat :=
  find (fun m => match nth_error M m with Some (VSubm _ _ _ _ _ r') => (r' =? r)%nat | _ => false end) (seq 0 (length M)).
Definition single_use (M : machine) : bool :=
  forallb (fun m => match nth_error M m with
                    | Some (VSubm _ _ _ _ _ r) => match user_of M r with Some m' => (m' =? m)%nat | None => false end
                    | _ => true end) (seq 0 (length M)).
(** The state a state is directly in, in such a machine. *)
Definition container (M : machine) (s : nat) : option nat :=
  match parent_of M s with
  | Some (Some p) => if is_rsm M p then user_of M p else Some p
  | _ => None
  end.
(** [v] is [q] or a state in [q], also by way of submachines. *)
Fixpoint nested (M : machine) (n : nat) (q v : nat) : bool :=
  (v =? q)%nat ||
  match n with
  | O => false
  | S n => match container M v with Some p => nested M n q p | None => false end
  end.
(** The state in [q] reached last. *)
Definition last_in (c : smcfg) (M : machine) (q : nat) (x : list xev) : option nat := last_such (nested M (sm_depth c) q) (states x).
(** It is known statically which states are in [q]: no submachine is used in
    [q], or none is used twice. *)
Definition clear_region (c : smcfg) (M : machine) (q : nat) : bool := plain c M q || single_use M.

(** An observer of the log who knows which states are active, innermost first.
    Only the innermost active state may be exited, with its exit action; only a
    state directly in the innermost active one may be entered, with its entry
    action.  [None]: the log breaks these rules. *)
Definition same_act (a b : option nat) : bool :=
  match a, b with Some x, Some y => (x =? y)%nat | None, None => true | _, _ => false end.
Fixpoint replay (M : machine) (conf : list nat) (x : list xev) : option (list nat) :=
  match x with
  | [] => Some conf
  | XExit s a :: r =>
    match conf with
    | t :: conf' => if (s =? t)%nat && same_act a (exit_of M s) then replay M conf' r else None
    | [] => None
    end
  | XEntry s a :: r =>
    if same_act (container M s) (hd_error conf) && same_act a (entry_of M s) then replay M (s :: conf) r else None
  | _ :: r => replay M conf r
  end.

(** The points passed in the processing of an event: on the path of the selected
    transition ([false]), and then on the default transitions of the composite
    states entered ([true]). *)
Section Visits.
Context (c : smcfg) (M : machine) (grd : nat -> evt -> list xev -> bool).
Inductive visits (pe : evt) (d : dyn) : bool -> point -> Prop :=
| visit_path cs l src t d0 v p :
    d_st d = Some cs -> chain M (d_dyp d) (Some cs) l -> selected M grd pe d l src t d0 -> t_tgt t = Some v -> room c [] ->
    segs c M grd pe (mkP (say d0 [XTrn src (Some v)]) v (act1 (t_act t)) src) p -> visits pe d false p
| visit_default d1 ts l b cs lc lt en ex q tbl v ia h p :
    visits pe d false (mkP d1 ts l b) -> d_st d = Some cs -> chain M (d_dyp d1) (Some cs) lc -> chain M (d_dyp d1) (Some ts) lt ->
    (length lt <= sm_depth c)%nat ->
    nth_error M ts = Some (VComp en ex q tbl (Some v) ia h) ->
    segs c M grd pe (mkP (enter M (enters lc lt) (effects pe l (leave M (exits lc lt) d1))) v (act1 ia) ts) p ->
    visits pe d true p
| visit_inner d1 ts l b es en ex q tbl v ia h p :
    visits pe d true (mkP d1 ts l b) -> below M (Some b) (Some ts) es ->
    nth_error M ts = Some (VComp en ex q tbl (Some v) ia h) ->
    segs c M grd pe (mkP (enter M (rev es) (effects pe l d1)) v (act1 ia) ts) p ->
    visits pe d true p.
End Visits.
