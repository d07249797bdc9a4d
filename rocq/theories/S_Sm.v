(** What a dispatch of an event must do, in the terms of a statechart: active
    configuration, enabled transitions, path of a compound transition, exited and
    entered states, default entry, histories, completion.  Nothing here uses the
    functions of M_Sm; only its data (vertices, RAM and log) is shared. *)
From Verif Require Import Base M_Sm.

Section Spec.
Context (c : smcfg) (M : machine) (grd : nat -> evt -> list xev -> bool).

(** * States and their nesting *)
Definition parent_of (s : nat) : option (option nat) :=
  match nth_error M s with
  | Some (VBasic _ _ p _) | Some (VComp _ _ p _ _ _ _) | Some (VFinal p) | Some (VSubm _ _ p _ _ _) => Some p
  | _ => None
  end.
Definition entry_of (s : nat) : option nat :=
  match nth_error M s with
  | Some (VBasic a _ _ _) | Some (VComp a _ _ _ _ _ _) | Some (VSubm a _ _ _ _ _) => a
  | _ => None
  end.
Definition exit_of (s : nat) : option nat :=
  match nth_error M s with
  | Some (VBasic _ a _ _) | Some (VComp _ a _ _ _ _ _) | Some (VSubm _ a _ _ _ _) => a
  | _ => None
  end.
Definition table_of (s : nat) : list trn :=
  match nth_error M s with
  | Some (VBasic _ _ _ t) | Some (VComp _ _ _ t _ _ _) | Some (VSubm _ _ _ t _ _) => t
  | _ => []
  end.
Definition is_rsm (s : nat) : bool :=
  match nth_error M s with Some (VRsm _ _) => true | _ => false end.
Definition is_comp (s : nat) : bool :=
  match nth_error M s with Some (VComp _ _ _ _ _ _ _) => true | _ => false end.
(** Where a machine rests. *)
Definition is_leaf (s : nat) : bool :=
  match nth_error M s with Some (VBasic _ _ _ _) | Some (VFinal _) => true | _ => false end.

(** The state a state is in: inside a referenced submachine, the submachine
    state it is used for at the moment. *)
Definition outer (dy : nat -> option nat) (p : option nat) : option nat :=
  match p with
  | None => None
  | Some q => if is_rsm q then dy q else Some q
  end.
Inductive chain (dy : nat -> option nat) : option nat -> list nat -> Prop :=
| chain_top : chain dy None []
| chain_in s p l : parent_of s = Some p -> chain dy (outer dy p) l -> chain dy (Some s) (s :: l).

(** What the theorems ask of a machine: nothing leads to the descriptor of a
    referenced submachine but the submachine states that use it; states are in
    composite states, submachines or nothing, histories in composite states; nesting, also through submachines,
    is not circular. *)
Definition targets (x : vertex) : list nat :=
  let some := fun o : option nat => match o with Some t => [t] | None => [] end in
  match x with
  | VBasic _ _ _ tbl | VCond tbl | VChoice tbl => flat_map (fun t => some (t_tgt t)) tbl
  | VComp _ _ _ tbl dc _ _ => some dc ++ flat_map (fun t => some (t_tgt t)) tbl
  | VSubm _ _ _ tbl expcn _ => flat_map (fun e => some (snd e)) expcn ++ flat_map (fun t => some (t_tgt t)) tbl
  | VRsm dc _ => some dc
  | VHist _ _ dft => some (t_tgt dft)
  | VEnp _ t _ => some t
  | VFinal _ | VExp _ _ | VNoHist _ => []
  end.
Record tidy (rank : nat -> nat) : Prop := {
  ty_tgt : forall v x t, nth_error M v = Some x -> In t (targets x) -> is_rsm t = false;
  ty_par : forall s q, parent_of s = Some (Some q) -> is_comp q || is_rsm q = true /\ (rank q < rank s)%nat;
  ty_sub : forall m en ex p tbl e r, nth_error M m = Some (VSubm en ex p tbl e r) -> (rank m <= rank r)%nat;
  ty_hist : forall h deep p t, nth_error M h = Some (VHist deep p t) -> exists q, p = Some q /\ is_comp q = true }.
(** And of RAM: history cells do not refer to such a descriptor, and a
    submachine is bound only to a submachine state that uses it. *)
Record tidy_ram (d : dyn) : Prop := {
  tr_hist : forall h s, d_hist d h = Some s -> is_rsm s = false;
  tr_dyp : forall r m, d_dyp d r = Some m -> exists en ex p tbl e, nth_error M m = Some (VSubm en ex p tbl e r) }.

(** * Enabled transitions *)
(** The transitions of a list are all disabled: guards evaluated in order, all
    false. *)
Inductive denied (pe : evt) : dyn -> list trn -> dyn -> Prop :=
| denied_none d : denied pe d [] d
| denied_one d t g r d' :
    t_grd t = Some g -> grd g pe (d_log d) = false ->
    denied pe (say d [XGrd g pe false]) r d' -> denied pe d (t :: r) d'.
Definition enabled (pe : evt) (d : dyn) (t : trn) (d' : dyn) : Prop :=
  match t_grd t with
  | None => d' = d
  | Some g => grd g pe (d_log d) = true /\ d' = say d [XGrd g pe true]
  end.
Definition first_of (pe : evt) (d : dyn) (l : list trn) (t : trn) (d' : dyn) : Prop :=
  exists pre post dm, l = pre ++ t :: post /\ denied pe d pre dm /\ enabled pe dm t d'.

Definition triggered (sig : N) (s : nat) : list trn := filter (fun t => (t_evt t =? sig)%N) (table_of s).
(** The innermost state of [l] with an enabled transition for the event, and the
    first of these in its table. *)
Definition selected (pe : evt) (d : dyn) (l : list nat) (s : nat) (t : trn) (d' : dyn) : Prop :=
  exists inner outer dm, l = inner ++ s :: outer /\
    denied pe d (flat_map (triggered (ev_sig pe)) inner) dm /\
    first_of pe dm (triggered (ev_sig pe) s) t d'.
Definition nothing (pe : evt) (d : dyn) (l : list nat) (d' : dyn) : Prop :=
  denied pe d (flat_map (triggered (ev_sig pe)) l) d'.

(** * The path of a compound transition *)
(** [p_pend]: the actions of the path not yet run; [p_base]: the region entered
    last through a history. *)
Record point := mkP { p_d : dyn; p_v : nat; p_pend : list nat; p_base : nat }.
Definition act1 (a : option nat) : list nat := match a with Some a => [a] | None => [] end.
Definition effects (pe : evt) (l : list nat) (d : dyn) : dyn := say d (map (fun a => XEff a pe) l).
Definition room (l : list nat) : Prop := (length l < sm_segs c)%nat.
Definition guarded (l : list trn) : list trn := filter (fun t => match t_grd t with Some _ => true | None => false end) l.

Inductive seg (pe : evt) : point -> point -> Prop :=
| seg_cond d v l b tbl t d1 v1 :
    nth_error M v = Some (VCond tbl) -> first_of pe d (guarded tbl) t d1 -> room l -> t_tgt t = Some v1 ->
    seg pe (mkP d v l b) (mkP d1 v1 (l ++ act1 (t_act t)) b)
| seg_choice d v l b tbl t d1 v1 :
    nth_error M v = Some (VChoice tbl) -> first_of pe (effects pe l d) (guarded tbl) t d1 -> room [] -> t_tgt t = Some v1 ->
    seg pe (mkP d v l b) (mkP d1 v1 (act1 (t_act t)) b)
| seg_hist d v l b deep q dft s :
    nth_error M v = Some (VHist deep (Some q) dft) -> d_hist d v = Some s ->
    seg pe (mkP d v l b) (mkP d s l q)
| seg_hist_dft d v l b deep q dft d1 v1 :
    nth_error M v = Some (VHist deep (Some q) dft) -> d_hist d v = None ->
    t_tgt dft = Some v1 -> enabled pe d dft d1 -> room l ->
    seg pe (mkP d v l b) (mkP d1 v1 (l ++ act1 (t_act dft)) q)
| seg_hist_none d v l b deep q dft :
    nth_error M v = Some (VHist deep (Some q) dft) -> d_hist d v = None -> t_tgt dft = None ->
    seg pe (mkP d v l b) (mkP d q l q)
| seg_subm d v l b en ex p tbl expcn r v1 ia :
    nth_error M v = Some (VSubm en ex p tbl expcn r) -> nth_error M r = Some (VRsm (Some v1) ia) -> room l ->
    seg pe (mkP d v l b) (mkP (set_dyp d r (Some v)) v1 (l ++ act1 ia) b)
| seg_enp d v l b a m v1 en ex p tbl expcn r :
    nth_error M v = Some (VEnp a (Some v1) m) -> nth_error M m = Some (VSubm en ex p tbl expcn r) -> room l ->
    seg pe (mkP d v l b) (mkP (set_dyp d r (Some m)) v1 (l ++ act1 a) b)
| seg_exp d v l b ix r m a v1 en ex p tbl expcn r' :
    nth_error M v = Some (VExp ix r) -> d_dyp d r = Some m -> nth_error M m = Some (VSubm en ex p tbl expcn r') ->
    nth_error expcn ix = Some (a, Some v1) -> room l ->
    seg pe (mkP d v l b) (mkP d v1 (l ++ act1 a) b).
Inductive segs (pe : evt) : point -> point -> Prop :=
| segs_here p : segs pe p p
| segs_on p q r : seg pe p q -> segs pe q r -> segs pe p r.
(** The path ends: in a state, *)
Definition is_target (s : nat) : bool :=
  match nth_error M s with
  | Some (VBasic _ _ _ _) | Some (VComp _ _ _ _ _ _ _) | Some (VFinal _) => true
  | _ => false
  end.
(** or with an error code. *)
Inductive fails (pe : evt) : point -> rcode -> dyn -> Prop :=
| fail_cond d v l b tbl d1 :
    nth_error M v = Some (VCond tbl) -> denied pe d (guarded tbl) d1 -> fails pe (mkP d v l b) CND_NFOUND d1
| fail_choice d v l b tbl d1 :
    nth_error M v = Some (VChoice tbl) -> denied pe (effects pe l d) (guarded tbl) d1 ->
    fails pe (mkP d v l b) CND_NFOUND d1
| fail_hist d v l b deep q dft g t :
    nth_error M v = Some (VHist deep (Some q) dft) -> d_hist d v = None -> t_tgt dft = Some t ->
    t_grd dft = Some g -> grd g pe (d_log d) = false ->
    fails pe (mkP d v l b) GRD_FALSE (say d [XGrd g pe false])
| fail_unknown d v l b p :
    nth_error M v = Some (VNoHist p) -> sm_asrt c = false -> fails pe (mkP d v l b) UNKN_STATE d
| fail_full d v l b d1 :
    sm_asrt c = false -> overfull pe d v l d1 -> fails pe (mkP d v l b) EX_TSEG d1
with overfull (pe : evt) : dyn -> nat -> list nat -> dyn -> Prop :=
| over_cond d v l tbl t d1 :
    nth_error M v = Some (VCond tbl) -> first_of pe d (guarded tbl) t d1 -> ~ room l -> overfull pe d v l d1
| over_choice d v l tbl t d1 :
    nth_error M v = Some (VChoice tbl) -> first_of pe (effects pe l d) (guarded tbl) t d1 -> ~ room [] ->
    overfull pe d v l d1
| over_hist d v l deep q dft d1 t :
    nth_error M v = Some (VHist deep (Some q) dft) -> d_hist d v = None -> t_tgt dft = Some t ->
    enabled pe d dft d1 -> ~ room l -> overfull pe d v l d1
| over_subm d v l en ex p tbl expcn r dc ia :
    nth_error M v = Some (VSubm en ex p tbl expcn r) -> nth_error M r = Some (VRsm dc ia) -> ~ room l ->
    overfull pe d v l (set_dyp d r (Some v))
| over_enp d v l a t m en ex p tbl expcn r :
    nth_error M v = Some (VEnp a t m) -> nth_error M m = Some (VSubm en ex p tbl expcn r) -> ~ room l ->
    overfull pe d v l (set_dyp d r (Some m))
| over_exp d v l ix r m en ex p tbl expcn r' :
    nth_error M v = Some (VExp ix r) -> d_dyp d r = Some m -> nth_error M m = Some (VSubm en ex p tbl expcn r') ->
    ~ room l -> overfull pe d v l d.

(** * Exited and entered states *)
Definition mem (s : nat) (l : list nat) : bool := existsb (Nat.eqb s) l.
(** The active state [hd lc] and those of its ancestors that the target is not
    in, innermost first. *)
Definition exits (lc lt : list nat) : list nat :=
  match lc with
  | [] => []
  | s :: anc => s :: filter (fun x => negb (mem x lt)) anc
  end.
(** The target and those of its ancestors that the active state is not in,
    outermost first. *)
Definition enters (lc lt : list nat) : list nat := rev (filter (fun x => negb (mem x (tl lc))) lt).

(** The history cell that remembers the state when it is exited. *)
Definition shallow_of (s : nat) : option nat :=
  match parent_of s with
  | Some (Some q) =>
    match nth_error M q with
    | Some (VComp _ _ _ _ _ _ (Some h)) =>
      match nth_error M h with Some (VHist false _ _) => Some h | _ => None end
    | _ => None
    end
  | _ => None
  end.
Definition leave1 (d : dyn) (s : nat) : dyn :=
  let d := say d [XExit s (exit_of s)] in
  match shallow_of s with Some h => set_hist d h (Some s) | None => d end.
Definition leave (l : list nat) (d : dyn) : dyn := fold_left leave1 l d.
Definition enter (l : list nat) (d : dyn) : dyn := say d (map (fun s => XEntry s (entry_of s)) l).

(** From [s] outwards, up to and without [base], within one machine. *)
Inductive below (base : option nat) : option nat -> list nat -> Prop :=
| below_here : below base base []
| below_in s p l : Some s <> base -> parent_of s = Some p -> below base p l -> below base (Some s) (s :: l).

(** * Default entry of a state just entered *)
Inductive out := Arrived (d : dyn) (s : nat) | Failed (d : dyn) (r : rcode).
Inductive default (pe : evt) : dyn -> nat -> out -> Prop :=
| def_leaf d s : is_leaf s = true -> default pe d s (Arrived d s)
| def_comp d q en ex p tbl v ia h d1 t l b es o :
    nth_error M q = Some (VComp en ex p tbl (Some v) ia h) -> room [] ->
    segs pe (mkP d v (act1 ia) q) (mkP d1 t l b) -> is_target t = true ->
    below (Some b) (Some t) es ->
    default pe (enter (rev es) (effects pe l d1)) t o -> default pe d q o
| def_fail d q en ex p tbl v ia h p1 r d1 :
    nth_error M q = Some (VComp en ex p tbl (Some v) ia h) -> room [] ->
    segs pe (mkP d v (act1 ia) q) p1 -> fails pe p1 r d1 -> default pe d q (Failed d1 r)
| def_none d q en ex p tbl dc ia h :
    nth_error M q = Some (VComp en ex p tbl dc ia h) -> ~ room [] -> sm_asrt c = false ->
    default pe d q (Failed d EX_TSEG).

(** The deep histories of the regions the new state is in are set to it. *)
Definition has_deep (h q : nat) : bool :=
  match nth_error M q with
  | Some (VComp _ _ _ _ _ _ (Some h')) =>
    (h =? h')%nat && match nth_error M h with Some (VHist true _ _) => true | _ => false end
  | _ => false
  end.
Definition rested (d : dyn) (s : nat) (d' : dyn) : Prop :=
  exists anc, chain (d_dyp d) (Some s) (s :: anc) /\
  d_st d' = Some s /\ d_dyp d' = d_dyp d /\ d_log d' = d_log d ++ [XState s] /\
  forall h, d_hist d' h = if existsb (has_deep h) anc then Some s else d_hist d h.

(** * One run-to-completion step *)
(** A transition with source [src] to vertex [v]. *)
Inductive fire (pe : evt) (d : dyn) (cs : nat) (src : nat) (v : nat) (a : option nat) : out -> Prop :=
| fire_ok d1 ts l b lc lt o :
    segs pe (mkP (say d [XTrn src (Some v)]) v (act1 a) src) (mkP d1 ts l b) -> room [] -> is_target ts = true ->
    chain (d_dyp d1) (Some cs) lc -> chain (d_dyp d1) (Some ts) lt -> In cs lt \/ (length lt <= sm_depth c)%nat ->
    default pe (enter (enters lc lt) (effects pe l (leave (exits lc lt) d1))) ts o ->
    fire pe d cs src v a o
| fire_fail p1 r d1 :
    segs pe (mkP (say d [XTrn src (Some v)]) v (act1 a) src) p1 -> room [] -> fails pe p1 r d1 ->
    fire pe d cs src v a (Failed d1 r)
| fire_deep d1 ts l b lt :
    segs pe (mkP (say d [XTrn src (Some v)]) v (act1 a) src) (mkP d1 ts l b) -> room [] -> is_target ts = true ->
    sm_asrt c = false -> cs <> ts -> chain (d_dyp d1) (Some ts) lt -> (sm_depth c < length lt)%nat ->
    fire pe d cs src v a (Failed d1 EX_HLEVEL)
| fire_full : ~ room [] -> sm_asrt c = false -> fire pe d cs src v a (Failed (say d [XTrn src (Some v)]) EX_TSEG).

(** The state's arrival is followed by a completion event. *)
Definition completes (s : nat) : bool :=
  match nth_error M s with
  | Some (VBasic _ _ _ tbl) => existsb (fun t => (t_evt t =? sm_any c - 1)%N) tbl
  | Some (VFinal (Some _)) => true
  | _ => false
  end.

(** Outcome of one event: what next. *)
Inductive result := Rest (d : dyn) | Chained (d : dyn) | Error (d : dyn) (r : rcode).
Definition settle (o : out) (r : result) : Prop :=
  match o with
  | Failed d e => r = Error d e
  | Arrived d s => exists d', rested d s d' /\ r = (if completes s then Chained d' else Rest d')
  end.
Inductive step (pe : evt) (d : dyn) : result -> Prop :=
| step_none cs l d' :
    d_st d = Some cs -> chain (d_dyp d) (Some cs) l -> nothing pe d l d' -> step pe d (Error d' EVT_NFOUND)
| step_internal cs l src t d1 :
    d_st d = Some cs -> chain (d_dyp d) (Some cs) l -> selected pe d l src t d1 -> t_tgt t = None -> room [] ->
    step pe d (Rest (effects pe (act1 (t_act t)) (say d1 [XTrn src None])))
| step_internal_full cs l src t d1 :
    d_st d = Some cs -> chain (d_dyp d) (Some cs) l -> selected pe d l src t d1 -> t_tgt t = None -> ~ room [] ->
    sm_asrt c = false -> step pe d (Error (say d1 [XTrn src None]) EX_TSEG)
| step_fire cs l src t d1 v o r :
    d_st d = Some cs -> chain (d_dyp d) (Some cs) l -> selected pe d l src t d1 -> t_tgt t = Some v ->
    fire pe d1 cs src v (t_act t) o -> settle o r -> step pe d r.

(** The initial transition. *)
Inductive create (pe : evt) (d : dyn) (v : nat) (a : option nat) : result -> Prop :=
| create_ok d1 ts l b es o r :
    segs pe (mkP (say d [XTrn v (Some v)]) v (act1 a) v) (mkP d1 ts l b) -> room [] -> is_target ts = true ->
    below None (Some ts) es -> default pe (enter (rev es) (effects pe l d1)) ts o -> settle o r ->
    create pe d v a r
| create_fail p1 r d1 :
    segs pe (mkP (say d [XTrn v (Some v)]) v (act1 a) v) p1 -> room [] -> fails pe p1 r d1 ->
    create pe d v a (Error d1 r)
| create_full : ~ room [] -> sm_asrt c = false -> create pe d v a (Error (say d [XTrn v (Some v)]) EX_TSEG).

(** Completion events follow one another until one is not followed by another. *)
Inductive finish : result -> dyn -> rcode -> Prop :=
| fin_rest d : finish (Rest d) d EVT_PROC
| fin_error d r : finish (Error d r) d r
| fin_chain d r d' e : step (mkEv (sm_any c - 1) 0) d r -> finish r d' e -> finish (Chained d) d' e.

Definition uml_dispatch (istate : nat) (iact : option nat) (d : dyn) (pe : evt) (d' : dyn) (e : rcode) : Prop :=
  exists r, (if (ev_sig pe =? sm_any c - 2)%N then create pe d istate iact r else step pe d r) /\ finish r d' e.
End Spec.
