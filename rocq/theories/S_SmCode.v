(** What the answer of [rkh_sm_dispatch] stands for. *)
From Verif Require Import Base M_Sm S_Sm S_SmWf S_SmRun.

(** The transitions begun and the states arrived at, in the log. *)
Definition is_mark (e : xev) : bool := match e with XTrn _ _ | XState _ => true | _ => false end.
Definition marks (x : list xev) : list xev := filter is_mark x.
(** The answer to a call that logged [marks] [l]: transitions are taken one after
    the other, each arrives before the next begins, and another follows only by
    a completion event. *)
Fixpoint account (c : smcfg) (M : machine) (l : list xev) (e : rcode) : Prop :=
  match l with
  | [] => e = EVT_NFOUND
  | [XTrn _ None] => e = if (0 <? sm_segs c)%nat then EVT_PROC else EX_TSEG
  | [XTrn _ (Some _)] =>
    e = CND_NFOUND \/ e = GRD_FALSE \/ (sm_asrt c = false /\ (e = UNKN_STATE \/ e = EX_HLEVEL \/ e = EX_TSEG))
  | XTrn _ (Some _) :: XState s :: r => if completes c M s then account c M r e else r = [] /\ e = EVT_PROC
  | _ => False
  end.
(** The last of them. *)
Definition latest (x : list xev) : option xev := last (map Some (marks x)) None.

(** The states whose completion the arrival at [s] stands for: [s] itself, or
    for a final state the state it is in, by way of a submachine the submachine
    state. *)
Definition owns (M : machine) (s o : nat) : bool :=
  match nth_error M s with
  | Some (VBasic _ _ _ _) => (o =? s)%nat
  | Some (VFinal (Some q)) =>
    match nth_error M o with
    | Some (VComp _ _ _ _ _ _ _) => (o =? q)%nat
    | Some (VSubm _ _ _ _ _ r) => (r =? q)%nat
    | _ => false
    end
  | _ => false
  end.
(** Every such state has a completion transition without guard. *)
Definition closed (c : smcfg) (M : machine) : bool :=
  forallb (fun s => negb (completes c M s) ||
    forallb (fun o => negb (owns M s o) ||
      existsb (fun t => (t_evt t =? sm_any c - 1)%N && match t_grd t with None => true | Some _ => false end) (table_of M o))
      (seq 0 (length M))) (seq 0 (length M)).
