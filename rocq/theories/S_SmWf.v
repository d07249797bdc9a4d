(** Well-formed machines, as the model files of RKH applications describe them:
    the check is a function and can be run on a machine.  [rank] orders the
    states by nesting, also through submachines; [home] tells which referenced
    submachine a vertex belongs to ([None]: the top machine). *)
From Verif Require Import Base M_Sm S_Sm.

Section Wf.
Context (c : smcfg) (M : machine) (rank : nat -> nat) (home : nat -> option nat).

Definition same_home (a b : option nat) : bool :=
  match a, b with Some x, Some y => (x =? y)%nat | None, None => true | _, _ => false end.
Definition ok_parent (v : nat) (p : option nat) : bool :=
  match p with
  | None => same_home (home v) None
  | Some q =>
    (rank q <? rank v)%nat &&
    match nth_error M q with
    | Some (VComp _ _ _ _ _ _ _) => same_home (home v) (home q)
    | Some (VRsm _ _) => same_home (home v) (Some q)
    | _ => false
    end
  end.
Definition ok_kind (t : nat) : bool :=
  match nth_error M t with
  | None | Some (VRsm _ _) | Some (VNoHist _) => false
  | _ => true
  end.
(** A transition leads to a vertex of the same machine. *)
Definition ok_target (h : option nat) (t : nat) : bool := ok_kind t && same_home (home t) h.
Definition ok_table (h : option nat) (tbl : list trn) : bool :=
  forallb (fun t => match t_tgt t with None => true | Some w => ok_target h w end) tbl.
Definition ok_branches (h : option nat) (tbl : list trn) : bool :=
  forallb (fun t => match t_tgt t with None => false | Some w => ok_target h w end) tbl.

(** [v] is [q] or a state in [q], in the same machine. *)
Fixpoint within (n : nat) (q v : nat) : bool :=
  (v =? q)%nat ||
  match n with
  | O => false
  | S n => match parent_of M v with Some (Some p) => within n q p | _ => false end
  end.
(** No submachine state in [q]. *)
Definition plain (q : nat) : bool :=
  forallb (fun m => match nth_error M m with Some (VSubm _ _ _ _ _ _) => negb (within (sm_depth c) q m) | _ => true end)
          (seq 0 (length M)).
(** Default transitions: through junctions, choices and the region's own
    history to states in the region; not into submachines. *)
Fixpoint ok_default (n : nat) (b : option nat) (v : nat) : bool :=
  match n with
  | O => false
  | S n =>
    match nth_error M v with
    | Some (VBasic _ _ _ _) | Some (VComp _ _ _ _ _ _ _) | Some (VFinal _) =>
      match b with Some q => within (sm_depth c) q v | None => same_home (home v) None end
    | Some (VCond tbl) | Some (VChoice tbl) =>
      forallb (fun t => match t_tgt t with None => false | Some w => ok_default n b w end) tbl
    | Some (VHist _ (Some q') dft) =>
      plain q' && match b with Some q => (q' =? q)%nat | None => same_home (home q') None end &&
      match t_tgt dft with None => true | Some w => ok_default n b w end
    | _ => false
    end
  end.

Definition wf_vertex (v : nat) (x : vertex) : bool :=
  match x with
  | VBasic _ _ p tbl => ok_parent v p && ok_table (home v) tbl && (rank v <? sm_depth c)%nat
  | VComp _ _ p tbl dc _ hi =>
    ok_parent v p && ok_table (home v) tbl && (rank v <? sm_depth c)%nat &&
    match hi with
    | None => true
    | Some h => match nth_error M h with
                | Some (VHist _ (Some q) _) => (q =? v)%nat
                | Some (VNoHist _) => true
                | _ => false
                end
    end &&
    match dc with None => false | Some w => ok_target (home v) w && ok_default (length M) (Some v) w end
  | VFinal p => ok_parent v p && (rank v <? sm_depth c)%nat
  | VSubm _ _ p tbl expcn r =>
    ok_parent v p && ok_table (home v) tbl && (rank v <? sm_depth c)%nat && (rank v <=? rank r)%nat && is_rsm M r &&
    forallb (fun e => match snd e with None => false | Some w => ok_target (home v) w end) expcn
  | VRsm dc _ => match dc with None => false | Some w => ok_target (Some v) w end
  | VCond tbl | VChoice tbl => ok_branches (home v) tbl
  | VHist _ p dft =>
    match p with
    | None => false
    | Some q => match nth_error M q with
                | Some (VComp _ _ _ _ _ _ (Some h)) => (h =? v)%nat && same_home (home q) (home v)
                | _ => false
                end
    end &&
    match t_tgt dft with None => true | Some w => ok_target (home v) w end
  | VEnp _ t m =>
    match nth_error M m with
    | Some (VSubm _ _ _ _ _ r) =>
      same_home (home m) (home v) && match t with None => false | Some w => ok_target (Some r) w end
    | _ => false
    end
  | VExp ix r =>
    is_rsm M r && same_home (home v) (Some r) &&
    forallb (fun x => match x with VSubm _ _ _ _ expcn r' => negb (r =? r')%nat || (ix <? length expcn)%nat | _ => true end) M
  | VNoHist _ => true
  end.
Definition wf_machine : bool :=
  forallb (fun v => match nth_error M v with Some x => wf_vertex v x | None => true end) (seq 0 (length M)).
(** The initial transition of the machine object. *)
Definition wf_initial (v : nat) : bool := ok_target None v && ok_default (length M) None v.

(** What is true of RAM between events. *)
Definition bound (dy : nat -> option nat) (h : option nat) : Prop :=
  match h with None => True | Some r => dy r <> None end.
Inductive inside (q : nat) : nat -> Prop :=
| inside_here : inside q q
| inside_up v p : parent_of M v = Some (Some p) -> inside q p -> inside q v.
Record ram_ok (d : dyn) : Prop := {
  ro_cell : forall h s, d_hist d h = Some s -> is_rsm M s = false;
  ro_dyp : forall r m, d_dyp d r = Some m ->
    (exists en ex p tbl e, nth_error M m = Some (VSubm en ex p tbl e r)) /\ bound (d_dyp d) (home m);
  ro_hist : forall h deep q dft s, nth_error M h = Some (VHist deep (Some q) dft) -> d_hist d h = Some s ->
    bound (d_dyp d) (home s) /\
    if deep then is_leaf M s = true /\ (plain q = true -> inside q s)
    else parent_of M s = Some (Some q) }.
Definition machine_ok (d : dyn) : Prop :=
  ram_ok d /\ exists s, d_st d = Some s /\ is_leaf M s = true /\ bound (d_dyp d) (home s).
End Wf.

(** Before the first event: RAM is zero. *)
Definition blank : dyn := mkD None (fun _ => None) (fun _ => None) [].
