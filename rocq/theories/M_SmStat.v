(** rkh_sm_dispatch as ports without RKH_CFGPORT_REENTRANT_EN compile it: most of
    its variables are static (sm/src/rkhsm.c: 75-84, 402-422), so they are shared
    by all dispatches.  The variables are one record that is passed along, and an
    action may change it: a dispatch made from within the action does. *)
From Verif Require Import Base M_Sm.

(** rkhsm.c: 408-421.  Pointers into sentry and al are indexes; an entry of al is
    NULL or an action. *)
Record loc := mkLoc { l_stn : option nat; l_stx : option nat; l_snl : nat; l_islca : bool;
  l_ixn : nat; l_ixx : nat; l_nn : nat; l_nen : nat;
  l_se : list (option nat); l_al : list (option nat); l_pal : nat; l_nal : nat; l_act : option nat }.
(** Assignment to stn.  rkhsm.c: 468-503, 586, 730. *)
Definition lset_stn (l : loc) (x : option nat) : loc :=
  mkLoc x (l_stx l) (l_snl l) (l_islca l) (l_ixn l) (l_ixx l) (l_nn l) (l_nen l) (l_se l) (l_al l) (l_pal l) (l_nal l) (l_act l).
(** The variables after RKH_EXEC_EXIT_ACTION (rkhsm.c: 190-238). *)
Definition lset_exit (l : loc) (stn stx : option nat) (snl : nat) (islca : bool) (ixn ixx : nat) (se : list (option nat)) : loc :=
  mkLoc stn stx snl islca ixn ixx (l_nn l) (l_nen l) se (l_al l) (l_pal l) (l_nal l) (l_act l).
(** Assignment to snl and ix_n.  rkhsm.c: 247-254. *)
Definition lset_snl (l : loc) (snl ixn : nat) : loc :=
  mkLoc (l_stn l) (l_stx l) snl (l_islca l) ixn (l_ixx l) (l_nn l) (l_nen l) (l_se l) (l_al l) (l_pal l) (l_nal l) (l_act l).
(** Assignment to nn and sentry.  rkhsm.c: 574, 621, 696, 703. *)
Definition lset_nn (l : loc) (nn : nat) (se : list (option nat)) : loc :=
  mkLoc (l_stn l) (l_stx l) (l_snl l) (l_islca l) (l_ixn l) (l_ixx l) nn (l_nen l) se (l_al l) (l_pal l) (l_nal l) (l_act l).
(** Assignment to nen.  rkhsm.c: 722. *)
Definition lset_nen (l : loc) (n : nat) : loc :=
  mkLoc (l_stn l) (l_stx l) (l_snl l) (l_islca l) (l_ixn l) (l_ixx l) (l_nn l) n (l_se l) (l_al l) (l_pal l) (l_nal l) (l_act l).
(** Assignment to al, pal and nal.  rkhsm.c: 149-154, 305-320. *)
Definition lset_al (l : loc) (al : list (option nat)) (pal nal : nat) : loc :=
  mkLoc (l_stn l) (l_stx l) (l_snl l) (l_islca l) (l_ixn l) (l_ixx l) (l_nn l) (l_nen l) (l_se l) al pal nal (l_act l).
(** Assignment to action.  rkhsm.c: 421, trnAct. *)
Definition lset_act (l : loc) (a : option nat) : loc :=
  mkLoc (l_stn l) (l_stx l) (l_snl l) (l_islca l) (l_ixn l) (l_ixx l) (l_nn l) (l_nen l) (l_se l) (l_al l) (l_pal l) (l_nal l) a.

(** rui8_t: ++ and --.  rkhsm.c: 305-320, nal. *)
Definition inc8 (n : nat) : nat := (S n) mod 256.
(** -- of a rui8_t.  rkhsm.c: 149-154, nal. *)
Definition dec8 (n : nat) : nat := match n with O => 255 | S n => n end.

Section Stat.
Context (c : smcfg) (M : machine) (grd : nat -> evt -> list xev -> bool).
(** What calling an action does to the static variables. *)
Context (call : nat -> loc -> res loc).
(** A call through a pointer that may be NULL.  rkhsm.c: 218, 250. *)
Definition callo (a : option nat) (l : loc) : res loc := match a with Some a => call a l | None => Ok l end.

(** rkhsm.c: 305-320, rkh_add_tr_action: [false], the list is full. *)
Definition add_actionS (l : loc) (act : option nat) : res (loc * bool) :=
  if sm_segs c <=? l_nal l then Ok (l, false)
  else match act with
       | Some a => do al <- wr (l_al l) (l_pal l) (Some a); Ok (lset_al l al (S (l_pal l)) (inc8 (l_nal l)), true)
       | None => Ok (l, true)
       end.

(** rkhsm.c: 149-154, RKH_EXEC_TRANSITION. *)
Fixpoint exec_acts_loop (fuel : nat) (l : loc) (d : dyn) (pe : evt) : res (loc * dyn) :=
  if Nat.eqb (l_nal l) 0 then Ok (lset_al l (l_al l) 0 (l_nal l), d)
  else match fuel with
       | O => Fault FFuel
       | S f =>
         do a <- rd (l_al l) (l_pal l);
         match a with
         | None => Fault (FUB UB_null)
         | Some a =>
           do l <- call a l;
           exec_acts_loop f (lset_al l (l_al l) (S (l_pal l)) (dec8 (l_nal l))) (say d [XEff a pe]) pe
         end
       end.
(** rkhsm.c: 149-154. *)
Definition exec_actsS (l : loc) (d : dyn) (pe : evt) : res (loc * dyn) :=
  exec_acts_loop 256 (lset_al l (l_al l) 0 (l_nal l)) d pe.

(** rkhsm.c: 571-574, 619-622. *)
Definition micro_targetsS (fuel : nat) (micro : bool) (l : loc) (ets : option nat) : res loc :=
  if micro then do (se, nn) <- add_target M fuel ets (l_se l) (l_stn l); Ok (lset_nn l (nn mod 256) se)
  else Ok l.
(** rkhsm.c: 571-574, 619-622. *)
Definition errorS (line : nat) {A} (r : rcode) (l : loc) (d : dyn) : res (loc * ctl A) :=
  do! rassert (sm_asrt c) line false; Ok (l, Stop r d).
(** Adds an action and goes on to [ets], or returns.
    rkhsm.c: 520-525, 563-568, 600-607, 629-635. *)
Definition segS (line : nat) (l : loc) (d : dyn) (act ets : option nat) : res (loc * ctl (dyn * option nat)) :=
  do (l, ok) <- add_actionS l act;
  if ok then Ok (l, Go (d, ets)) else errorS line EX_TSEG l d.

(** rkhsm.c: 553-575. *)
Definition branchS (fuel : nat) (micro : bool) (pe : evt) (l : loc) (d : dyn) (tbl : list trn)
  : res (loc * ctl (dyn * option nat)) :=
  match find_branch grd d pe tbl with
  | (d, None) => Ok (l, Stop CND_NFOUND d)
  | (d, Some t) =>
    do (l, r) <- segS 566 l d (t_act t) (t_tgt t);
    match r with
    | Stop r d => Ok (l, Stop r d)
    | Go (d, ets) => do l <- micro_targetsS fuel micro l ets; Ok (l, Go (d, ets))
    end
  end.

(** rkhsm.c: 541-672, one turn of the loop of stage 3; [None] leaves the loop. *)
Definition pseudoS (fuel : nat) (micro : bool) (pe : evt) (l : loc) (d : dyn) (ets : option nat)
  : res (option (loc * ctl (dyn * option nat))) :=
  do x <- vxo M ets;
  match x with
  | VBasic _ _ _ _ | VComp _ _ _ _ _ _ _ | VFinal _ | VRsm _ _ => Ok None
  | VChoice tbl =>                                                   (* 544-551 *)
    do (l, d) <- exec_actsS l d pe;
    do r <- branchS fuel micro pe l d tbl; Ok (Some r)
  | VCond tbl => do r <- branchS fuel micro pe l d tbl; Ok (Some r)    (* 554-576 *)
  | VHist _ par dft =>                                               (* 579-623 *)
    do! if sm_asrt c then
          match par with
          | None => Fault (FAssert 583)
          | Some p => do y <- vx M p;
                      match y with
                      | VComp _ _ _ _ _ _ h => rassert true 583 (match h with Some _ => true | None => false end)
                      | _ => Fault (FUB UB_type)
                      end
          end
        else Ok tt;
    match ets with
    | None => Fault (FUB UB_null)
    | Some v =>
      let l := lset_stn l par in
      do (l, r) <- match d_hist d v with
              | Some s => Ok (l, Go (d, Some s))
              | None =>
                match t_tgt dft with
                | None => Ok (l, Go (d, par))
                | Some t =>
                  let (d, b) := match t_grd dft with
                                | Some g => exec_guard grd d g pe
                                | None => (d, true)
                                end in
                  if b then segS 605 l d (t_act dft) (Some t) else Ok (l, Stop GRD_FALSE d)
                end
              end;
      match r with
      | Stop r d => Ok (Some (l, Stop r d))
      | Go (d, ets) => do l <- micro_targetsS fuel micro l ets; Ok (Some (l, Go (d, ets)))
      end
    end
  | VSubm _ _ _ _ _ rsm =>                                           (* 626-637 *)
    do y <- vx M rsm;
    match y with
    | VRsm dc ia => do r <- segS 633 l (set_dyp d rsm ets) ia dc; Ok (Some r)
    | _ => Fault (FUB UB_type)
    end
  | VEnp act tgt par =>                                              (* 638-650 *)
    do y <- vx M par;
    match y with
    | VSubm _ _ _ _ _ rsm =>
      do z <- vx M rsm;
      match z with
      | VRsm _ _ => do r <- segS 646 l (set_dyp d rsm (Some par)) act tgt; Ok (Some r)
      | _ => Fault (FUB UB_type)
      end
    | _ => Fault (FUB UB_type)
    end
  | VExp ix rsm =>                                                   (* 651-663 *)
    do y <- vx M rsm;
    match y with
    | VRsm _ _ =>
      do z <- vxo M (d_dyp d rsm);
      match z with
      | VSubm _ _ _ _ expcn _ => do (act, tgt) <- rd expcn ix; do r <- segS 659 l d act tgt; Ok (Some r)
      | _ => Fault (FUB UB_type)
      end
    | _ => Fault (FUB UB_type)
    end
  | VNoHist _ => do e <- errorS 668 UNKN_STATE l d; Ok (Some e)       (* 665-669 *)
  end.

(** rkhsm.c: 539-674, stage 3. *)
Fixpoint walkS (fuel : nat) (micro : bool) (pe : evt) (l : loc) (d : dyn) (ets : option nat)
  : res (loc * ctl (dyn * option nat)) :=
  match fuel with
  | O => Fault FFuel
  | S f =>
    do r <- pseudoS fuel micro pe l d ets;
    match r with
    | None => Ok (l, Go (d, ets))
    | Some (l, Stop r d) => Ok (l, Stop r d)
    | Some (l, Go (d, ets)) => walkS f micro pe l d ets
    end
  end.

(** rkhsm.c: 190-238, RKH_EXEC_EXIT_ACTION, the outer loop.  snl and ix_n run in
    parallel in the inner one.  As in [M_Sm], ix_x does not wrap: fewer than 256
    states are nested. *)
Fixpoint exits_loop (fuel : nat) (l : loc) (d : dyn) (tgt : option nat) : res (loc * ctl dyn) :=
  match l_stx l with
  | None => Ok (l, Go d)
  | Some s =>
    match fuel with
    | O => Fault FFuel
    | S f =>
      do r <- entry_list c M fuel d s tgt 0 (l_se l);
      match r with
      | None => errorS 689 EX_HLEVEL l d
      | Some (stn, ixn, se) =>
        let l := lset_exit l stn (Some s) ixn (l_islca l || match stn with Some _ => true | None => false end) ixn (l_ixx l) se in
        if negb (l_islca l) || Nat.eqb (l_ixx l) 0 then
          do x <- vx M s;
          do a <- st_exit x;
          do l <- callo a l;
          match l_stx l with
          | None => Fault (FUB UB_null)
          | Some s' =>
            do d <- update_shallow M (say d [XExit s a]) s';
            if l_islca l then
              do se <- wr (l_se l) (l_snl l) (l_stn l);
              Ok (lset_exit l (l_stn l) (l_stx l) (l_snl l) (l_islca l) (inc8 (l_ixn l)) (S (l_ixx l)) se, Go d)
            else do p <- update_parent M d s';
                 exits_loop f (lset_exit l (l_stn l) p (l_snl l) (l_islca l) (l_ixn l) (S (l_ixx l)) (l_se l)) d tgt
          end
        else Ok (l, Go d)
      end
    end
  end.
(** rkhsm.c: 190-238. *)
Definition exec_exitsS (fuel : nat) (l : loc) (d : dyn) (src tgt : option nat) : res (loc * ctl dyn) :=
  do (l, r) <- exits_loop fuel (lset_exit l (l_stn l) src (l_snl l) false 0 0 (l_se l)) d tgt;
  Ok (lset_nn l (l_ixn l) (l_se l), r).

(** rkhsm.c: 245-254, RKH_EXEC_ENTRY_ACTION; the last step is [stn = *snl]. *)
Fixpoint entries_loop (fuel : nat) (l : loc) (d : dyn) (isc : bool) : res (loc * dyn * bool) :=
  if Nat.eqb (l_ixn l) 0 then
    do stn <- rd (l_se l) (l_snl l); Ok (lset_stn l stn, d, isc)
  else match fuel with
  | O => Fault FFuel
  | S f =>
    match l_snl l with
    | O => Fault (FUB UB_bounds)
    | S snl =>
      do s <- rd (l_se l) snl;
      do x <- vxo M s;
      do a <- st_enter x;
      match s with
      | None => Fault (FUB UB_null)
      | Some s =>
        do l <- callo a (lset_snl l snl (l_ixn l));
        do s' <- rd (l_se l) (l_snl l);
        do x' <- vxo M s';
        entries_loop f (lset_snl l (l_snl l) (dec8 (l_ixn l))) (say d [XEntry s a]) (is_completion c x')
      end
    end
  end.
(** rkhsm.c: 245-254. *)
Definition exec_entriesS (l : loc) (d : dyn) (isc : bool) : res (loc * dyn * bool) :=
  entries_loop 256 (lset_snl l (l_nn l) (l_nn l)) d isc.

(** rkhsm.c: 516-738. *)
Fixpoint descendS (fuel : nat) (micro : bool) (cs : option (option nat)) (pe : evt)
    (l : loc) (d : dyn) (ets : option nat) (isc : bool) : res (loc * ctl (dyn * bool)) :=
  match fuel with
  | O => Fault FFuel
  | S f =>
    do (l, ok) <- add_actionS (lset_al l (l_al l) 0 0) (l_act l);          (* 518-525 *)
    if ok then
      do (l, r) <- walkS fuel micro pe l d ets;
      match r with
      | Stop r d => Ok (l, Stop r d)
      | Go (d, ets) =>
        do (l, r) <- (if micro then                                   (* 700-706 *)
                   do (se, nn) <- add_target M fuel ets (l_se l) (l_stn l); Ok (lset_nn l (nn mod 256) se, Go d)
                 else match cs with
                 | Some cs => exec_exitsS fuel l d cs ets             (* 681-690 *)
                 | None =>                                            (* 691-698 *)
                   do (se, n) <- add_target M fuel ets (l_se l) None; Ok (lset_nn l ((l_nn l + n) mod 256) se, Go d)
                 end);
        match r with
        | Stop r d => Ok (l, Stop r d)
        | Go d =>
          do (l, d) <- exec_actsS l d pe;                              (* 712 *)
          do (l, d, isc) <- exec_entriesS l d isc;                     (* 721 *)
          let l := lset_nen l ((l_nen l + l_nn l) mod 256) in          (* 722 *)
          do x <- vxo M ets;
          match x with
          | VComp _ _ _ _ dc ia _ =>                                  (* 724-731 *)
            descendS f true cs pe (lset_stn (lset_act l ia) ets) d dc isc
          | _ => Ok (l, Go (d, isc))
          end
        end
      end
    else errorS 523 EX_TSEG l d
  end.

(** rkhsm.c: 438-756, one turn of the outer loop. *)
Definition roundS (fuel : nat) (l : loc) (d : dyn) (creation : option (nat * option nat)) (pe : evt)
  : res (loc * ctl (dyn * bool)) :=
  do (l, r) <- match creation with
          | None =>                                                   (* 466-495 *)
            match d_st d with
            | None => Fault (FUB UB_null)
            | Some cs =>
              do (d1, r) <- find_up M grd fuel d (Some cs) pe;
              match r with
              | None => Ok (lset_stn l None, Stop EVT_NFOUND d1)
              | Some (src, t) => Ok (lset_act (lset_stn l (Some src)) (t_act t), Go (d1, src, Some (Some cs), t_tgt t))
              end
            end
          | Some (istate, iact) =>                                    (* 496-507 *)
            let l := lset_act (lset_stn l (Some istate)) iact in
            Ok (lset_exit (lset_nn l 0 (l_se l)) (l_stn l) (l_stx l) (l_snl l) (l_islca l) (l_ixn l) 0 (l_se l),
                Go (d, istate, None, Some istate))
          end;
  match r with
  | Stop r d => Ok (l, Stop r d)
  | Go (d, src, cs, ets) =>
    let l := lset_nen l 0 in
    let d := say d [XTrn src ets] in                                  (* 513-515 *)
    match ets with
    | None =>                                                         (* internal: 518-525, 712 *)
      do (l, ok) <- add_actionS (lset_al l (l_al l) 0 0) (l_act l);
      if ok then do (l, d) <- exec_actsS l d pe; Ok (l, Go (d, false)) else errorS 523 EX_TSEG l d
    | Some _ =>
      do (l, r) <- descendS fuel false cs pe l d ets false;
      match r with
      | Stop r d => Ok (l, Stop r d)
      | Go (d, isc) =>
        do d <- update_deep M fuel d (l_stn l);                        (* 747 *)
        match l_stn l with
        | None => Fault (FUB UB_null)
        | Some s => Ok (l, Go (say (set_st d (l_stn l)) [XState s], isc))  (* 749-751 *)
        end
      end
    end
  end.

(** rkhsm.c: 438-759, the turns after the first one. *)
Fixpoint completeS (fuel : nat) (l : loc) (d : dyn) (isc : bool) : res (loc * dyn * rcode) :=
  if isc then
    match fuel with
    | O => Fault FFuel
    | S f =>
      do (l, r) <- roundS fuel l d None (evCompletion c);
      match r with
      | Stop r d => Ok (l, d, r)
      | Go (d, isc) => completeS f l d isc
      end
    end
  else Ok (l, d, EVT_PROC).

(** rkhsm.c: 389-760, [rkh_sm_dispatch] with static variables. *)
Definition dispatchS (fuel : nat) (istate : nat) (iact : option nat) (l : loc) (d : dyn) (pe : evt)
  : res (loc * dyn * rcode) :=
  do (l, r) <- roundS fuel l d (if (ev_sig pe =? sig_creation c)%N then Some (istate, iact) else None) pe;
  match r with
  | Stop r d => Ok (l, d, r)
  | Go (d, isc) => completeS fuel l d isc
  end.
(** rkhsm.c: 375-379, [rkh_sm_init]. *)
Definition sm_initS (fuel : nat) (istate : nat) (iact : option nat) (l : loc) (d : dyn) : res (loc * dyn * rcode) :=
  dispatchS fuel istate iact l d (evCreation c).
End Stat.

(** rkhsm.c: 740-742, what the trace record RKH_TE_SM_NENEX at the end of a turn
    has: the numbers of entered and exited states. *)
Definition nenex (l : loc) : nat * nat := (l_nen l, l_ixx l).
