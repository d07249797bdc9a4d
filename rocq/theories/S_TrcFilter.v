(** Specification of the trace filters: independent switches. *)
From Verif Require Import Base M_TrcFilter.
Local Open Scope N_scope.

(** Switches of the groups, of the events of each group, of the signals and of
    the active objects; [true]: records are emitted. *)
Record fsw := mkFsw { w_grp : N -> bool; w_evt : N -> N -> bool; w_sig : N -> bool; w_sma : N -> bool }.

Definition w_init : fsw := mkFsw (fun _ => false) (fun _ _ => false) (fun _ => false) (fun _ => false).

(** The operations of trc/inc/rkhtrc_filter.h: 72-215; [on] is true for the
    RKH_FILTER_OFF_... macros. *)
Inductive fop :=
| FGroup (on : bool) (g : N)          (* RKH_FILTER_ON/OFF_GROUP *)
| FGroupEvts (on : bool) (g : N)      (* RKH_FILTER_ON/OFF_GROUP_ALL_EVENTS *)
| FAllGroups (on : bool)              (* ..._GROUP(RKH_TRC_ALL_GROUPS) *)
| FEvent (on : bool) (g e : N)        (* ..._EVENT(e-th event of group g) *)
| FAllEvents (on : bool)              (* ..._EVENT(RKH_TRC_ALL_EVENTS) *)
| FSig (on : bool) (s : N) | FAllSig (on : bool)
| FSma (on : bool) (p : N) | FAllSma (on : bool).

Definition ctl (on : bool) : N := if on then 1 else 0.
Definition evid (c : fcfg) (g e : N) : N := g * 2 ^ fl_ev c + e.

Definition f_step (c : fcfg) (f : flt) (o : fop) : res flt :=
  match o with
  | FGroup on g => fl_group f (ctl on) g 1
  | FGroupEvts on g => fl_group f (ctl on) g 0
  | FAllGroups on => fl_group f (ctl on) ALL_GROUPS 1
  | FEvent on g e => fl_event c f (ctl on) (evid c g e)
  | FAllEvents on => fl_event c f (ctl on) (ALL_EVENTS c)
  | FSig on s => fl_sym c f 1 s (ctl on)
  | FAllSig on => fl_sym c f 1 0 (N.lor (ctl on) ALL_FILTERS)
  | FSma on p => fl_sym c f 2 p (ctl on)
  | FAllSma on => fl_sym c f 2 0 (N.lor (ctl on) ALL_FILTERS)
  end.
Fixpoint f_run (c : fcfg) (f : flt) (ops : list fop) : res flt :=
  match ops with [] => Ok f | o :: ops => do f <- f_step c f o; f_run c f ops end.

Definition w_step (w : fsw) (o : fop) : fsw :=
  match o with
  | FGroup on g => mkFsw (fun x => if x =? g then on else w_grp w x) (w_evt w) (w_sig w) (w_sma w)
  | FGroupEvts on g =>
    mkFsw (fun x => if x =? g then on else w_grp w x) (fun x y => if x =? g then on else w_evt w x y) (w_sig w) (w_sma w)
  | FAllGroups on => mkFsw (fun _ => on) (w_evt w) (w_sig w) (w_sma w)
  | FEvent on g e =>
    mkFsw (fun x => if (x =? g) && on then true else w_grp w x)
          (fun x y => if (x =? g) && (y =? e) then on else w_evt w x y) (w_sig w) (w_sma w)
  | FAllEvents on => mkFsw (fun _ => on) (fun _ _ => on) (w_sig w) (w_sma w)
  | FSig on s => mkFsw (w_grp w) (w_evt w) (fun x => if x =? s then on else w_sig w x) (w_sma w)
  | FAllSig on => mkFsw (w_grp w) (w_evt w) (fun _ => on) (w_sma w)
  | FSma on p => mkFsw (w_grp w) (w_evt w) (w_sig w) (fun x => if x =? p then on else w_sma w x)
  | FAllSma on => mkFsw (w_grp w) (w_evt w) (w_sig w) (fun _ => on)
  end.
Definition w_run (w : fsw) (ops : list fop) : fsw := fold_left w_step ops w.

(** Number of events the configuration reserves for each group
    (rkhtrc_define.h: 223-230, eight per byte). *)
Definition grp_events (g : N) : N :=
  nth (N.to_nat g) [8; 8; 16; 24; 8; 24; 32; 16] 0.

(** Widths of the identifiers and of the slots. *)
Definition fl_cfg_ok (c : fcfg) (nsig nsma : nat) : Prop :=
  ((fl_ev c = 5 /\ fl_idm c = 256) \/ (fl_ev c = 8 /\ fl_idm c = 2 ^ 16) \/ (fl_ev c = 24 /\ fl_idm c = 2 ^ 32)) /\
  8 * N.of_nat nsig <= fl_fsm c /\ 8 * N.of_nat nsma <= fl_fsm c /\ (nsig <= 32)%nat /\ (nsma <= 32)%nat /\
  (0 < nsig)%nat /\ (0 < nsma)%nat.

(** Arguments inside the ranges; the events of group UT end before
    RKH_TRC_ALL_EVENTS. *)
Definition ev_ok (g e : N) : Prop := g < 8 /\ e < grp_events g.
Definition fop_ok (nsig nsma : nat) (o : fop) : Prop :=
  match o with
  | FGroup _ g | FGroupEvts _ g => g < 8
  | FEvent _ g e => ev_ok g e /\ (g = 7 -> e < 8)
  | FSig _ s => s < 8 * N.of_nat nsig
  | FSma _ p => p < 8 * N.of_nat nsma
  | _ => True
  end.
