(** Model of the state machine engine, sm/src/rkhsm.c, configured with
    hierarchy, all pseudostates, histories and submachines
    (RKH_CFG_SMA_HCAL_EN, RKH_CFG_SMA_PSEUDOSTATE_EN and the five features under
    it enabled).  RKH_CFG_SMA_PPRO_EN is disabled, as in every configuration the
    project builds: with it RKH_PROCESS_INPUT (rkhsm.c: 132-136) does not compile,
    RKH_ST_T having no field prepro.  Application functions - guards, actions,
    entry and exit actions - are names; each call is put in a log, and what a
    guard answers may depend on everything in the log so far.  Loops take fuel
    and end in [FFuel] if it runs out. *)
From Verif Require Import Base.

(** Configuration: assertions, RKH_CFG_SMA_MAX_HCAL_DEPTH,
    RKH_CFG_SMA_MAX_TRC_SEGS, and RKH_ANY (rkhitl.h: 133). *)
Record smcfg := mkSm { sm_asrt : bool; sm_depth : nat; sm_segs : nat; sm_any : N }.
(** rkhitl.h: 144 and 156. *)
Definition sig_completion (c : smcfg) : N := (sm_any c - 1)%N.
(** rkhitl.h: 156, RKH_SM_CREATION_EVENT. *)
Definition sig_creation (c : smcfg) : N := (sm_any c - 2)%N.

(** An event: its signal and its identity.  fwk/inc/rkhevt.h: 124-146. *)
Record evt := mkEv { ev_sig : N; ev_id : N }.
(** rkhsm.c: 266-267. *)
Definition evCompletion (c : smcfg) : evt := mkEv (sig_completion c) 0.
(** rkhsm.c: 266-267. *)
Definition evCreation (c : smcfg) : evt := mkEv (sig_creation c) 1.

(** sm/inc/rkhsm.h: 2032-2057, RKH_TR_T.  Guards and actions are names, NULL is
    [None]; vertices are indexes in the machine, NULL is [None]. *)
Record trn := mkT { t_evt : N; t_grd : option nat; t_act : option nat; t_tgt : option nat }.

(** sm/inc/rkhsm.h: 2064-2545, the vertex structures with their type code
    (rkhitl.h: 1628-1641).  A transition or branch table is the list of its
    entries before the RKH_ANY terminator.  RAM cells behind history (target) and
    referenced submachines (dyp) are in [dyn]. *)
Inductive vertex :=
| VBasic (enter exit : option nat) (parent : option nat) (tbl : list trn)
| VComp (enter exit : option nat) (parent : option nat) (tbl : list trn)
        (defchild : option nat) (iact : option nat) (hist : option nat)
| VFinal (parent : option nat)
| VSubm (enter exit : option nat) (parent : option nat) (tbl : list trn)
        (expcn : list (option nat * option nat)) (rsm : nat)
| VRsm (defchild : option nat) (iact : option nat)
| VCond (tbl : list trn)
| VChoice (tbl : list trn)
| VHist (deep : bool) (parent : option nat) (dft : trn)
| VEnp (act : option nat) (tgt : option nat) (parent : nat)
| VExp (ix : nat) (rsm : nat)
| VNoHist (parent : option nat).     (* RKH_NO_HISTORY *)
(** All vertices of the application, rkhsm.h: 2064-2200. *)
Definition machine := list vertex.

(** What an execution does, in order: evaluations of guards with their result,
    transition actions with the event they get, exits and entries with the action
    they run; and two of the trace records: the selected transition
    (RKH_TR_SM_TRN, 513) and the new state (RKH_TR_SM_STATE, 750).
    rkhsm.c: 93, 149-154, 218, 250. *)
Inductive xev :=
| XGrd (g : nat) (e : evt) (b : bool)
| XEff (a : nat) (e : evt)
| XExit (s : nat) (a : option nat)
| XEntry (s : nat) (a : option nat)
| XTrn (src : nat) (tgt : option nat)
| XState (s : nat).

(** RAM: me->state, the history cells by history vertex, the dynamic parents by
    referenced submachine; and the log.
    rkhsm.h: 2064-2545, the cells behind the vertices; rkhsm.c: 389-424. *)
Record dyn := mkD { d_st : option nat; d_hist : nat -> option nat; d_dyp : nat -> option nat; d_log : list xev }.
(** me->state = s (rkhsm.c: 749). *)
Definition set_st (d : dyn) (s : option nat) : dyn := mkD s (d_hist d) (d_dyp d) (d_log d).
(** Assignment to one cell.  rkhsm.c: 120, 628. *)
Definition fupd {A} (f : nat -> A) (i : nat) (x : A) : nat -> A := fun j => if Nat.eqb j i then x else f j.
(** *h->target = s (rkhsm.c: 120, 126, 342). *)
Definition set_hist (d : dyn) (h : nat) (s : option nat) : dyn := mkD (d_st d) (fupd (d_hist d) h s) (d_dyp d) (d_log d).
(** *r->dyp = s (rkhsm.c: 628, 641). *)
Definition set_dyp (d : dyn) (r : nat) (s : option nat) : dyn := mkD (d_st d) (d_hist d) (fupd (d_dyp d) r s) (d_log d).
(** A call or record is added to the log.  rkhsm.c: 93, 149-154, 218, 250. *)
Definition say (d : dyn) (x : list xev) : dyn := mkD (d_st d) (d_hist d) (d_dyp d) (d_log d ++ x).

(** sm/inc/rkhsm.h: 1557-1597. *)
Inductive rcode := EVT_PROC | EVT_NFOUND | CND_NFOUND | GRD_FALSE | UNKN_STATE | EX_HLEVEL | EX_TSEG.

(** Go on, or return from rkh_sm_dispatch.  rkhsm.c: 490-669, the returns. *)
Inductive ctl (A : Type) := Go (a : A) | Stop (r : rcode) (d : dyn).
Arguments Go {A} a.
Arguments Stop {A} r d.

Section Sm.
Context (c : smcfg) (M : machine) (grd : nat -> evt -> list xev -> bool).

(** Dereferencing a vertex pointer.  rkhsm.c: 389-760. *)
Definition vx (v : nat) : res vertex :=
  match nth_error M v with Some x => Ok x | None => Fault (FUB UB_dangling) end.
(** Dereferencing a pointer that may be NULL.  rkhsm.c: 389-760. *)
Definition vxo (v : option nat) : res vertex :=
  match v with Some v => vx v | None => Fault (FUB UB_null) end.

(** CST(s)->parent, CST(s)->enter, CST(s)->exit (rkhsm.h: 2064-2090). *)
Definition st_parent (x : vertex) : res (option nat) :=
  match x with
  | VBasic _ _ p _ | VComp _ _ p _ _ _ _ | VFinal p | VSubm _ _ p _ _ _ => Ok p
  | _ => Fault (FUB UB_type)
  end.
(** CST(s)->enter.  rkhsm.h: 2064-2090. *)
Definition st_enter (x : vertex) : res (option nat) :=
  match x with
  | VBasic a _ _ _ | VComp a _ _ _ _ _ _ | VSubm a _ _ _ _ _ => Ok a
  | VFinal _ => Ok None
  | _ => Fault (FUB UB_type)
  end.
(** CST(s)->exit.  rkhsm.h: 2064-2090. *)
Definition st_exit (x : vertex) : res (option nat) :=
  match x with
  | VBasic _ a _ _ | VComp _ a _ _ _ _ _ | VSubm _ a _ _ _ _ => Ok a
  | VFinal _ => Ok None
  | _ => Fault (FUB UB_type)
  end.
(** CBSC(s)->trtbl; the field has the same place in basic, composite, final and
    submachine states.  rkhsm.h: 2097-2105. *)
Definition st_tbl (x : vertex) : res (list trn) :=
  match x with
  | VBasic _ _ _ t | VComp _ _ _ t _ _ _ | VSubm _ _ _ t _ _ => Ok t
  | VFinal _ => Ok []
  | _ => Fault (FUB UB_type)
  end.

(** rkhsm.c: 174-182, UPDATE_PARENT and UPDATE_IN_PARENT. *)
Definition update_parent (d : dyn) (s : nat) : res (option nat) :=
  do x <- vx s;
  do p <- st_parent x;
  match p with
  | None => Ok None
  | Some q => do y <- vx q;
              match y with VRsm _ _ => Ok (d_dyp d q) | _ => Ok (Some q) end
  end.

(** rkhitl.h: 2448-2465, RKH_EXEC_GUARD. *)
Definition exec_guard (d : dyn) (g : nat) (pe : evt) : dyn * bool :=
  let b := grd g pe (d_log d) in (say d [XGrd g pe b], b).

(** rkhsm.c: 86-111, FIND_TRN. *)
Fixpoint find_trn (d : dyn) (pe : evt) (tbl : list trn) (sig : N) : dyn * option trn :=
  match tbl with
  | [] => (d, None)
  | t :: r =>
    if (t_evt t =? sig)%N then
      match t_grd t with
      | Some g => let (d1, b) := exec_guard d g pe in
                  if b then (d1, Some t) else find_trn d1 pe r sig
      | None => (d, Some t)
      end
    else find_trn d pe r sig
  end.

(** rkhsm.c: 141-147, FIND_BRANCH. *)
Fixpoint find_branch (d : dyn) (pe : evt) (tbl : list trn) : dyn * option trn :=
  match tbl with
  | [] => (d, None)
  | t :: r =>
    match t_grd t with
    | Some g => let (d1, b) := exec_guard d g pe in
                if b then (d1, Some t) else find_branch d1 pe r
    | None => find_branch d pe r
    end
  end.

(** rkhsm.c: 470-478: from the current state upwards.  The result has the
    transition and the state it belongs to (stn). *)
Fixpoint find_up (fuel : nat) (d : dyn) (stn : option nat) (pe : evt) : res (dyn * option (nat * trn)) :=
  match stn with
  | None => Ok (d, None)
  | Some s =>
    match fuel with
    | O => Fault FFuel
    | S f =>
      do x <- vx s;
      do tbl <- st_tbl x;
      match find_trn d pe tbl (ev_sig pe) with
      | (d1, Some t) => Ok (d1, Some (s, t))
      | (d1, None) => do p <- update_parent d1 s; find_up f d1 p pe
      end
    end
  end.

(** rkhsm.c: 276-291 and 293-303, findCompletionTrn and isCompletionTrn. *)
Definition find_completion (tbl : list trn) : bool :=
  existsb (fun t => (t_evt t =? sig_completion c)%N) tbl.
(** rkhsm.c: 293-303, isCompletionTrn. *)
Definition is_completion (x : vertex) : bool :=
  match x with
  | VBasic _ _ _ tbl => find_completion tbl
  | VFinal p => match p with Some _ => true | None => false end
  | _ => false
  end.

(** rkhsm.c: 305-320, rkh_add_tr_action: the list and the number of actions in
    it.  [None]: the list is full. *)
Definition add_action (al : list nat) (nal : nat) (act : option nat) : res (option (list nat * nat)) :=
  if sm_segs c <=? nal then Ok None
  else match act with
       | Some a => do al <- wr al nal a; Ok (Some (al, S nal))
       | None => Ok (Some (al, nal))
       end.

(** rkhsm.c: 149-154, RKH_EXEC_TRANSITION: the actions al[0] .. al[nal-1]. *)
Fixpoint exec_acts (al : list nat) (i n : nat) (d : dyn) (pe : evt) : res dyn :=
  match n with
  | O => Ok d
  | S n => do a <- rd al i; exec_acts al (S i) n (say d [XEff a pe]) pe
  end.

(** rkhsm.c: 350-371, addTargetSt: fills stList with the states from target up
    to, and without, cmpSt. *)
Fixpoint add_target_loop (fuel : nat) (st : option nat) (se : list (option nat)) (n : nat) (cmp : option nat)
  : res (list (option nat) * nat) :=
  if match st, cmp with Some a, Some b => Nat.eqb a b | None, None => true | _, _ => false end then Ok (se, n)
  else match fuel with
       | O => Fault FFuel
       | S f =>
         do se <- wr se n st;
         do x <- vxo st;
         do p <- st_parent x;
         add_target_loop f p se (S n) cmp
       end.
(** rkhsm.c: 350-371. *)
Definition add_target (fuel : nat) (target : option nat) (se : list (option nat)) (cmp : option nat)
  : res (list (option nat) * nat) :=
  do x <- vxo target;
  match x with
  | VComp _ _ _ _ _ _ _ | VBasic _ _ _ _ | VFinal _ => add_target_loop fuel target se 0 cmp
  | _ => Ok (se, 0)
  end.

(** The variables of rkh_sm_dispatch that stage 3 works on: ets, the action
    list al with nal, stn, sentry, nn.  rkhsm.c: 402-422. *)
Record wst := mkW { w_d : dyn; w_ets : option nat; w_al : list nat; w_nal : nat;
  w_stn : option nat; w_se : list (option nat); w_nn : nat }.
(** Assignment to ets, al and nal after a segment.  rkhsm.c: 553-670. *)
Definition w_seg (w : wst) (d : dyn) (ets : option nat) (x : list nat * nat) : wst :=
  mkW d ets (fst x) (snd x) (w_stn w) (w_se w) (w_nn w).

(** RKH_ERROR (rkhassert.h: 163): stops with assertions on, else goes on. *)
Definition error (line : nat) {A} (r : rcode) (d : dyn) : res (ctl A) :=
  do! rassert (sm_asrt c) line false; Ok (Stop r d).

(** [if (isMicroStep) nn = addTargetSt(CST(ets), sentry, stn)] (571-574, 619-622).
    rkhsm.c: 571-574, 619-622. *)
Definition micro_targets (fuel : nat) (micro : bool) (w : wst) : res wst :=
  if micro then do (se, nn) <- add_target fuel (w_ets w) (w_se w) (w_stn w);
                Ok (mkW (w_d w) (w_ets w) (w_al w) (w_nal w) (w_stn w) se nn)
  else Ok w.

(** rkhsm.c: 553-575, the branches of a conditional or choice. *)
Definition branch (fuel : nat) (micro : bool) (pe : evt) (w : wst) (tbl : list trn) : res (ctl wst) :=
  match find_branch (w_d w) pe tbl with
  | (d, None) => Ok (Stop CND_NFOUND d)
  | (d, Some t) =>
    do r <- add_action (w_al w) (w_nal w) (t_act t);
    match r with
    | None => error 566 EX_TSEG d
    | Some an => do w <- micro_targets fuel micro (w_seg w d (t_tgt t) an); Ok (Go w)
    end
  end.

(** rkhsm.c: 541-672, one turn of the loop of stage 3; [None] leaves the loop. *)
Definition pseudo (fuel : nat) (micro : bool) (pe : evt) (w : wst) : res (option (ctl wst)) :=
  do x <- vxo (w_ets w);
  match x with
  | VBasic _ _ _ _ | VComp _ _ _ _ _ _ _ | VFinal _ | VRsm _ _ => Ok None
  | VChoice tbl =>                                                   (* 544-551 *)
    do d <- exec_acts (w_al w) 0 (w_nal w) (w_d w) pe;
    do r <- branch fuel micro pe (mkW d (w_ets w) (w_al w) 0 (w_stn w) (w_se w) (w_nn w)) tbl;
    Ok (Some r)
  | VCond tbl => do r <- branch fuel micro pe w tbl; Ok (Some r)       (* 554-576 *)
  | VHist _ par dft =>                                               (* 579-623 *)
    do! if sm_asrt c then
          match par with
          | None => Fault (FAssert 583)
          | Some p => do y <- vx p;
                      match y with
                      | VComp _ _ _ _ _ _ h => rassert true 583 (match h with Some _ => true | None => false end)
                      | _ => Fault (FUB UB_type)
                      end
          end
        else Ok tt;
    match w_ets w with
    | None => Fault (FUB UB_null)
    | Some v =>
      let w := mkW (w_d w) (w_ets w) (w_al w) (w_nal w) par (w_se w) (w_nn w) in
      do r <- match d_hist (w_d w) v with
              | Some s => Ok (Go (w_seg w (w_d w) (Some s) (w_al w, w_nal w)))
              | None =>
                match t_tgt dft with
                | None => Ok (Go (w_seg w (w_d w) par (w_al w, w_nal w)))
                | Some t =>
                  let (d, b) := match t_grd dft with
                                | Some g => exec_guard (w_d w) g pe
                                | None => (w_d w, true)
                                end in
                  if b then
                    do r <- add_action (w_al w) (w_nal w) (t_act dft);
                    match r with
                    | None => error 605 EX_TSEG d
                    | Some an => Ok (Go (w_seg w d (Some t) an))
                    end
                  else Ok (Stop GRD_FALSE d)
                end
              end;
      match r with
      | Stop r d => Ok (Some (Stop r d))
      | Go w => do w <- micro_targets fuel micro w; Ok (Some (Go w))
      end
    end
  | VSubm _ _ _ _ _ rsm =>                                           (* 626-637 *)
    do y <- vx rsm;
    match y with
    | VRsm dc ia =>
      let d := set_dyp (w_d w) rsm (w_ets w) in
      do r <- add_action (w_al w) (w_nal w) ia;
      match r with
      | None => do e <- error 633 EX_TSEG d; Ok (Some e)
      | Some an => Ok (Some (Go (w_seg w d dc an)))
      end
    | _ => Fault (FUB UB_type)
    end
  | VEnp act tgt par =>                                              (* 638-650 *)
    do y <- vx par;
    match y with
    | VSubm _ _ _ _ _ rsm =>
      do z <- vx rsm;
      match z with
      | VRsm _ _ =>
        let d := set_dyp (w_d w) rsm (Some par) in
        do r <- add_action (w_al w) (w_nal w) act;
        match r with
        | None => do e <- error 646 EX_TSEG d; Ok (Some e)
        | Some an => Ok (Some (Go (w_seg w d tgt an)))
        end
      | _ => Fault (FUB UB_type)
      end
    | _ => Fault (FUB UB_type)
    end
  | VExp ix rsm =>                                                   (* 651-663 *)
    do y <- vx rsm;
    match y with
    | VRsm _ _ =>
      do z <- vxo (d_dyp (w_d w) rsm);
      match z with
      | VSubm _ _ _ _ expcn _ =>
        do (act, tgt) <- rd expcn ix;
        do r <- add_action (w_al w) (w_nal w) act;
        match r with
        | None => do e <- error 659 EX_TSEG (w_d w); Ok (Some e)
        | Some an => Ok (Some (Go (w_seg w (w_d w) tgt an)))
        end
      | _ => Fault (FUB UB_type)
      end
    | _ => Fault (FUB UB_type)
    end
  | VNoHist _ => do e <- error 668 UNKN_STATE (w_d w); Ok (Some e)    (* 665-669 *)
  end.

(** rkhsm.c: 539-674, stage 3. *)
Fixpoint walk (fuel : nat) (micro : bool) (pe : evt) (w : wst) : res (ctl wst) :=
  match fuel with
  | O => Fault FFuel
  | S f =>
    do r <- pseudo fuel micro pe w;
    match r with
    | None => Ok (Go w)
    | Some (Stop r d) => Ok (Stop r d)
    | Some (Go w) => walk f micro pe w
    end
  end.

(** rkhsm.c: 113-120, RKH_UPDATE_SHALLOW_HIST. *)
Definition update_shallow (d : dyn) (s : nat) : res dyn :=
  do x <- vx s;
  do p <- st_parent x;
  match p with
  | None => Ok d
  | Some q =>
    do y <- vx q;
    match y with
    | VComp _ _ _ _ _ _ (Some h) =>
      do z <- vx h;
      match z with
      | VHist false _ _ => Ok (set_hist d h (Some s))
      | VHist true _ _ | VNoHist _ => Ok d
      | _ => Fault (FUB UB_type)
      end
    | _ => Ok d
    end
  end.

(** rkhsm.c: 195-216, the inner loop of RKH_EXEC_EXIT_ACTION: [Some] the state
    where it stopped - [None] at the top - with ix_n and sentry; [None]: too deep. *)
Fixpoint entry_list (fuel : nat) (d : dyn) (stx : nat) (stn : option nat) (ix_n : nat) (se : list (option nat))
  : res (option (option nat * nat * list (option nat))) :=
  match stn with
  | None => Ok (Some (None, ix_n, se))
  | Some n =>
    if Nat.eqb stx n then Ok (Some (Some n, ix_n, se))
    else if ix_n <? sm_depth c then
      match fuel with
      | O => Fault FFuel
      | S f => do se <- wr se ix_n (Some n);
               do p <- update_parent d n;
               entry_list f d stx p (S ix_n) se
      end
    else Ok None
  end.

(** rkhsm.c: 190-238, RKH_EXEC_EXIT_ACTION, used at 689: result sentry and nex. *)
Fixpoint exec_exits (fuel : nat) (d : dyn) (stx : option nat) (ix_x : nat) (tgt : option nat)
    (se : list (option nat)) (ix_n : nat) : res (ctl (dyn * list (option nat) * nat)) :=
  match stx with
  | None => Ok (Go (d, se, ix_n))
  | Some s =>
    match fuel with
    | O => Fault FFuel
    | S f =>
      do r <- entry_list fuel d s tgt 0 se;
      match r with
      | None => error 689 EX_HLEVEL d
      | Some (stn, ix_n, se) =>
        let islca := match stn with Some _ => true | None => false end in
        if negb islca || Nat.eqb ix_x 0 then
          do x <- vx s;
          do a <- st_exit x;
          do d <- update_shallow (say d [XExit s a]) s;
          if islca then do se <- wr se ix_n stn; Ok (Go (d, se, S ix_n))
          else do p <- update_parent d s; exec_exits f d p (S ix_x) tgt se ix_n
        else Ok (Go (d, se, ix_n))
      end
    end
  end.

(** rkhsm.c: 245-254, RKH_EXEC_ENTRY_ACTION: sentry[n-1] down to sentry[0]. *)
Fixpoint exec_entries (n : nat) (se : list (option nat)) (d : dyn) (isc : bool) : res (dyn * bool) :=
  match n with
  | O => Ok (d, isc)
  | S n =>
    do s <- rd se n;
    do x <- vxo s;
    do a <- st_enter x;
    match s with
    | None => Fault (FUB UB_null)
    | Some s => exec_entries n se (say d [XEntry s a]) (is_completion x)
    end
  end.

(** rkhsm.c: 322-345, rkh_update_deep_hist; [s] is the state looked at. *)
Fixpoint update_deep_loop (fuel : nat) (d : dyn) (from : nat) (s : option nat) : res dyn :=
  match s with
  | None => Ok d
  | Some q =>
    match fuel with
    | O => Fault FFuel
    | S f =>
      do y <- vx q;
      match y with
      | VRsm _ _ => do z <- vxo (d_dyp d q); do p <- st_parent z; update_deep_loop f d from p
      | VComp _ _ p _ _ _ h =>
        match h with
        | None => update_deep_loop f d from p
        | Some h =>
          do z <- vx h;
          match z with
          | VHist true _ _ => update_deep_loop f (set_hist d h (Some from)) from p
          | VHist false _ _ | VNoHist _ => update_deep_loop f d from p
          | _ => Fault (FUB UB_type)
          end
        end
      | _ => Fault (FUB UB_type)
      end
    end
  end.
(** rkhsm.c: 322-345. *)
Definition update_deep (fuel : nat) (d : dyn) (from : option nat) : res dyn :=
  do x <- vxo from;
  do p <- st_parent x;
  match from with Some s => update_deep_loop fuel d s p | None => Fault (FUB UB_null) end.

(** rkhsm.c: 516-738, the loop over the main target and its default descendants;
    not for internal transitions.  [cs]: the state to exit from, [None] for the
    creation event.  Result: dyn, stn and isCompletionEvent. *)
Fixpoint descend (fuel : nat) (micro : bool) (cs : option (option nat)) (pe : evt) (act : option nat)
    (w : wst) (isc : bool) : res (ctl (dyn * option nat * bool)) :=
  match fuel with
  | O => Fault FFuel
  | S f =>
    do r <- add_action (w_al w) 0 act;                                (* 518-525 *)
    match r with
    | None => error 523 EX_TSEG (w_d w)
    | Some an =>
      do r <- walk fuel micro pe (w_seg w (w_d w) (w_ets w) an);
      match r with
      | Stop r d => Ok (Stop r d)
      | Go w =>
        do r <- (if micro then                                        (* 700-706 *)
                   do (se, nn) <- add_target fuel (w_ets w) (w_se w) (w_stn w); Ok (Go (w_d w, se, nn))
                 else match cs with
                 | Some cs => exec_exits fuel (w_d w) cs 0 (w_ets w) (w_se w) 0     (* 681-690 *)
                 | None =>                                            (* 691-698 *)
                   do (se, n) <- add_target fuel (w_ets w) (w_se w) None; Ok (Go (w_d w, se, (w_nn w + n)%nat))
                 end);
        match r with
        | Stop r d => Ok (Stop r d)
        | Go (d, se, nn) =>
          do d <- exec_acts (w_al w) 0 (w_nal w) d pe;                 (* 712 *)
          do (d, isc) <- exec_entries nn se d isc;                     (* 721 *)
          do stn <- rd se 0;
          do x <- vxo (w_ets w);
          match x with
          | VComp _ _ _ _ dc ia _ =>                                  (* 724-731 *)
            descend f true cs pe ia (mkW d dc (w_al w) 0 (w_ets w) se nn) isc
          | _ => Ok (Go (d, stn, isc))
          end
        end
      end
    end
  end.

(** rkhsm.c: 438-756, one turn of the outer loop.  [al], [se]: what the arrays
    contain.  Result: isCompletionEvent for the next turn. *)
Definition round (fuel : nat) (d : dyn) (creation : option (nat * option nat)) (pe : evt)
    (al : list nat) (se : list (option nat)) : res (ctl (dyn * bool)) :=
  do r <- match creation with
          | None =>                                                   (* 466-495 *)
            match d_st d with
            | None => Fault (FUB UB_null)
            | Some cs =>
              do (d1, r) <- find_up fuel d (Some cs) pe;
              match r with
              | None => Ok (Stop EVT_NFOUND d1)
              | Some (src, t) => Ok (Go (d1, src, Some (Some cs), t_tgt t, t_act t))
              end
            end
          | Some (istate, iact) => Ok (Go (d, istate, None, Some istate, iact))  (* 496-507 *)
          end;
  match r with
  | Stop r d => Ok (Stop r d)
  | Go (d, src, cs, ets, act) =>
    let d := say d [XTrn src ets] in                                  (* 513-515 *)
    match ets with
    | None =>                                                         (* internal: 518-525, 712 *)
      do r <- add_action al 0 act;
      match r with
      | None => error 523 EX_TSEG d
      | Some (al, nal) => do d <- exec_acts al 0 nal d pe; Ok (Go (d, false))
      end
    | Some _ =>
      do r <- descend fuel false cs pe act (mkW d ets al 0 (Some src) se 0) false;
      match r with
      | Stop r d => Ok (Stop r d)
      | Go (d, stn, isc) =>
        do d <- update_deep fuel d stn;                               (* 747 *)
        match stn with
        | None => Fault (FUB UB_null)
        | Some s => Ok (Go (say (set_st d stn) [XState s], isc))       (* 749-751 *)
        end
      end
    end
  end.

(** rkhsm.c: 438-759, the turns after the first one, for completion events.
    [ars k]: what the arrays al and sentry contain at the start of turn [k]; no
    turn depends on it, so they are not passed from one turn to the next. *)
Fixpoint complete (fuel : nat) (d : dyn) (isc : bool) (ars : nat -> list nat * list (option nat)) (k : nat)
  : res (dyn * rcode) :=
  if isc then
    match fuel with
    | O => Fault FFuel
    | S f =>
      do r <- round fuel d None (evCompletion c) (fst (ars k)) (snd (ars k));
      match r with
      | Stop r d => Ok (d, r)
      | Go (d, isc) => complete f d isc ars (S k)
      end
    end
  else Ok (d, EVT_PROC).

(** rkhsm.c: 389-760, [rkh_sm_dispatch].  [istate], [iact]: the initial vertex
    and action of the state machine object (rkhsm.h: RKH_SM_T). *)
Definition dispatch (fuel : nat) (istate : nat) (iact : option nat) (d : dyn) (pe : evt)
    (ars : nat -> list nat * list (option nat)) : res (dyn * rcode) :=
  do r <- round fuel d (if (ev_sig pe =? sig_creation c)%N then Some (istate, iact) else None) pe
                (fst (ars O)) (snd (ars O));
  match r with
  | Stop r d => Ok (d, r)
  | Go (d, isc) => complete fuel d isc ars 1
  end.

(** rkhsm.c: 375-379, [rkh_sm_init]. *)
Definition sm_init (fuel : nat) (istate : nat) (iact : option nat) (d : dyn)
    (ars : nat -> list nat * list (option nat)) : res (dyn * rcode) :=
  dispatch fuel istate iact d (evCreation c) ars.
End Sm.

(** rkhsm.c: 381-387, [rkh_sm_clear_history]. *)
Definition clear_history (d : dyn) (h : nat) : dyn := set_hist d h None.
