(** The state machine engine without hierarchy: sm/src/rkhsm.c with
    RKH_CFG_SMA_HCAL_EN and RKH_CFG_SMA_PSEUDOSTATE_EN disabled, as in
    demo/cross/blinky/rkhcfg.h.  (With hierarchy disabled and choices or
    conditionals enabled, lines 571-574 use addTargetSt and sentry, which are then
    not declared.) *)
From Verif Require Import Base M_Sm.

Section Flat.
Context (c : smcfg) (M : machine) (grd : nat -> evt -> list xev -> bool).

(** CBSC(s)->trtbl as rkhitl.h: 1928-1939 fills it without hierarchy: MKBASIC and
    MKCOMP put the table there, MKFINAL puts nothing, so that the table of a final
    state is NULL. *)
Definition flat_tbl (x : vertex) : res (list trn) :=
  match x with
  | VBasic _ _ _ t | VComp _ _ _ t _ _ _ => Ok t
  | VFinal _ => Fault (FUB UB_null)
  | _ => Fault (FUB UB_type)
  end.

(** rkhsm.c: 389-760, [rkh_sm_dispatch].  isCompletionEvent and isMicroStep are
    never set, so both loops run once.  [ixn]: what the static variable ix_n
    contains. *)
Definition flat_dispatch (istate : nat) (iact : option nat) (d : dyn) (pe : evt) (al : list nat) (ixn : nat)
  : res (dyn * rcode) :=
  let creation := (ev_sig pe =? sig_creation c)%N in
  do r <- (if creation then Ok (d, Some (istate, istate, Some istate, iact))             (* 496-507 *)
           else match d_st d with
           | None => Fault (FUB UB_null)
           | Some cs =>
             do x <- vx M cs;                                                            (* 478-480 *)
             do tbl <- flat_tbl x;
             match find_trn grd d pe tbl (ev_sig pe) with
             | (d1, None) => Ok (d1, None)                                               (* 486-491 *)
             | (d1, Some t) => Ok (d1, Some (cs, cs, t_tgt t, t_act t))                   (* 493-494 *)
             end
           end);
  match r with
  | (d, None) => Ok (d, EVT_NFOUND)
  | (d, Some (cs, stn, ets, act)) =>
    let d := say d [XTrn stn ets] in                                                    (* 513-515 *)
    do r <- add_action c al 0 act;                                                        (* 518-525 *)
    match r with
    | None => do! rassert (sm_asrt c) 523 false; Ok (d, EX_TSEG)
    | Some (al, nal) =>
      match ets with
      | None => do d <- exec_acts al 0 nal d pe; Ok (d, EVT_PROC)                       (* 712 *)
      | Some ts =>
        let '(ix_n, ix_x) :=
          if creation then (ixn, 0)                                                       (* 505-506 *)
          else let b := if Nat.eqb cs ts then 0 else 1 in (b, b) in                       (* 240-242 *)
        do d <- exec_acts al 0 nal d pe;                                                  (* 712 *)
        let stn := if Nat.eqb ix_n ix_x && Nat.eqb ix_x 0 then stn else ts in            (* 256-264 *)
        do! vx M ts;                                                                      (* 724 *)
        Ok (say (set_st d (Some stn)) [XState stn], EVT_PROC)                             (* 749-757 *)
      end
    end
  end.

(** rkhsm.c: 375-379, [rkh_sm_init]. *)
Definition flat_init (istate : nat) (iact : option nat) (d : dyn) (al : list nat) (ixn : nat) : res (dyn * rcode) :=
  flat_dispatch istate iact d (evCreation c) al ixn.
End Flat.
