(** Theorems about the static variables of rkh_sm_dispatch. *)
From Verif Require Import Base L_Base M_Sm S_Sm S_SmWf S_SmRun L_SmSafe L_SmMore M_SmStat S_SmStat L_SmStat L_SmCnt P_SmExample.

(** * C68 Static variables make no difference as long as no action dispatches *)

(** Whatever the static variables contain, a dispatch in which no action changes
    them ends as one with variables of its own - with some contents of the work
    arrays, which the theorems C42 to C51 leave open. *)
Theorem C68_one_call :
  forall c M grd fuel istate iact l d pe, bytes_ok c -> statics_ok c l ->
  exists ars, arrays_ok c ars /\
    match dispatchS c M grd keep fuel istate iact l d pe, dispatch c M grd fuel istate iact d pe ars with
    | Ok (l', d1, e1), Ok (d2, e2) => d1 = d2 /\ e1 = e2 /\ statics_ok c l'
    | Fault f1, Fault f2 => f1 = f2
    | _, _ => False
    end.
Proof.
  intros c M grd fuel istate iact l d pe [H1 H2] Hl.
  destruct (dispatch_eq c M grd keep (fun _ _ => eq_refl) H1 H2 fuel istate iact l d pe Hl) as (ars & HA & HX).
  exists ars. split; [exact HA|]. exact HX.
Qed.
(** Machines that share the static variables: each one ends as it does when it is
    run alone with the calls that were made for it; and if a call does not return,
    the machine it was for does the same when it is alone. *)
Theorem C68_as_alone :
  forall c fuel os l ds ops, bytes_ok c -> statics_ok c l ->
  match runS c (fun _ => keep) fuel os (l, ds) ops with
  | Ok (l', ds') => statics_ok c l' /\ forall i, exists sops,
      Forall2 same_call (calls_of i ops) sops /\ Forall (smop_ok c) sops /\
      sm_run c (o_m (os i)) (o_grd (os i)) fuel (o_ist (os i)) (o_iact (os i)) (ds i) sops = Ok (ds' i)
  | Fault f => exists i pre post sops, ops = pre ++ post /\
      Forall2 same_call (calls_of i pre) sops /\ Forall (smop_ok c) sops /\
      sm_run c (o_m (os i)) (o_grd (os i)) fuel (o_ist (os i)) (o_iact (os i)) (ds i) sops = Fault f
  end.
Proof. intros c fuel os l ds ops Hb Hl. exact (run_alone c fuel os Hb ops l ds Hl). Qed.
(** So well-formed machines never use memory wrongly. *)
Theorem C68_safe :
  forall c fuel os rank home l ops, bytes_ok c -> statics_ok c l ->
  (forall i, wf_machine c (o_m (os i)) (rank i) (home i) = true /\ wf_initial c (o_m (os i)) (home i) (o_ist (os i)) = true) ->
  safe c (runS c (fun _ => keep) fuel os (l, fun _ => blank) ops).
Proof.
  intros c fuel os rank home l ops Hb Hl W. pose proof (C68_as_alone c fuel os l (fun _ => blank) ops Hb Hl) as H.
  destruct (runS c (fun _ => keep) fuel os (l, fun _ => blank) ops) as [[l' ds']|f]; [exact I|].
  destruct H as (i & pre & post & sops & _ & _ & Ho & E). destruct (W i) as [W1 W2].
  assert (S : safe c (sm_run c (o_m (os i)) (o_grd (os i)) fuel (o_ist (os i)) (o_iact (os i)) blank sops)).
  { apply (run_ready c (o_m (os i)) (rank i) (home i) W1 (o_grd (os i))); [exact W2 | exact Ho | apply (blank_ready c (o_m (os i)) (home i))]. }
  rewrite E in S. exact S.
Qed.

(** The vertices of two machines: those of [xm] and one state, number 19. *)
Definition zm : machine := xm ++ [ bs 19 None [ tr 1 None (Some 50) (Some 19) ] ].
Definition zo (i : nat) : mobj := match i with O => mkObj zm xgrd 0 None | _ => mkObj zm xgrd 19 (Some 51) end.
Definition z0 : loc := mkLoc (Some 3) (Some 1) 2 true 77 5 200 9 [Some 4; None; Some 1; None] [None; Some 9; None; None] 3 2 (Some 8).
Definition zops : list (nat * cop) := [(0, CInit); (1, CInit); (0, CDisp (ev 1 0)); (1, CDisp (ev 1 0)); (0, CDisp (ev 8 0))].
Example C68_case :
  bytes_ok xc /\ statics_ok xc z0 /\ wf_machine xc zm xrank xhome = true /\
  wf_initial xc zm xhome 0 = true /\ wf_initial xc zm xhome 19 = true /\
  match runS xc (fun _ => keep) 20 zo (z0, fun _ => blank) zops with
  | Ok (_, ds) => d_st (ds 0) = Some 4 /\ d_st (ds 1) = Some 19 /\
      d_log (ds 1) = [XTrn 19 (Some 19); XEff 51 (evCreation xc); XEntry 19 (Some 119); XState 19;
                      XTrn 19 (Some 19); XExit 19 (Some 219); XEff 50 (ev 1 0); XEntry 19 (Some 119); XState 19]
  | Fault _ => False
  end.
Proof.
  split; [split; vm_compute; repeat constructor|]. split; [split; reflexivity|].
  split; [vm_compute; reflexivity|]. split; [vm_compute; reflexivity|]. split; [vm_compute; reflexivity|].
  vm_compute. repeat split.
Qed.

(** Refuted: that an action may activate another active object, whose machine is
    then initialised within the dispatch.  Action [a] does that. *)
Definition activates (a : nat) : nat -> loc -> res loc := fun b l =>
  if Nat.eqb b a then do (l, _, _) <- sm_initS xc zm xgrd keep 20 19 (Some 51) l blank; Ok l else Ok l.
Definition zstart : dyn := ok_or blank (sm_run xc zm xgrd 20 0 None blank (on [])).
Definition zdisp (a : nat) : res (loc * dyn * rcode) := dispatchS xc zm xgrd (activates a) 20 0 None z0 zstart (ev 1 0).
Lemma z_ok : machine_ok xc zm xhome zstart.
Proof.
  assert (W : wf_machine xc zm xrank xhome = true) by (vm_compute; reflexivity).
  assert (Hi : wf_initial xc zm xhome 0 = true) by (vm_compute; reflexivity).
  assert (Hk : is_ok (sm_run xc zm xgrd 20 0 None blank (on [])) = true) by (vm_compute; reflexivity).
  assert (Hs : d_st zstart = Some 0) by (vm_compute; reflexivity).
  unfold zstart in *. destruct (sm_run xc zm xgrd 20 0 None blank (on [])) as [d|] eqn:E; [|discriminate].
  exact (run_machine xc zm xrank xhome W xgrd 20 0 None (on []) d 0 Hi (x_on []) E Hs).
Qed.
(** From an action of the transition, the list of actions is overrun: a null
    pointer is called.  From an entry action, the list of states to enter is. *)
Theorem C68_activate_from_action_refuted :
  ~ (forall c M rank home grd fuel istate iact MB istateB iactB a l d pe,
     bytes_ok c -> statics_ok c l -> wf_machine c M rank home = true -> wf_machine c MB rank home = true ->
     wf_initial c M home istate = true -> wf_initial c MB home istateB = true -> machine_ok c M home d ->
     safe c (dispatchS c M grd (fun b l => if Nat.eqb b a
                                           then do (l, _, _) <- sm_initS c MB grd keep fuel istateB iactB l blank; Ok l
                                           else Ok l) fuel istate iact l d pe)).
Proof.
  intros H.
  assert (E : zdisp 1 = Fault (FUB UB_null)) by (vm_compute; reflexivity).
  assert (Hb : bytes_ok xc) by (split; vm_compute; repeat constructor).
  assert (Hl : statics_ok xc z0) by (split; reflexivity).
  assert (W : wf_machine xc zm xrank xhome = true) by (vm_compute; reflexivity).
  assert (Hi : wf_initial xc zm xhome 0 = true) by (vm_compute; reflexivity).
  assert (Hj : wf_initial xc zm xhome 19 = true) by (vm_compute; reflexivity).
  pose proof (H xc zm xrank xhome xgrd 20 0 None zm 19 (Some 51) 1 z0 zstart (ev 1 0) Hb Hl W W Hi Hj z_ok) as S.
  change (safe xc (zdisp 1)) in S. rewrite E in S. exact S.
Qed.
Example C68_activate_case :
  zdisp 1 = Fault (FUB UB_null) /\ zdisp 102 = Fault (FUB UB_bounds) /\ zdisp 103 = Fault (FUB UB_bounds) /\
  is_ok (zdisp 99) = true.
Proof. split; [|split; [|split]]; vm_compute; reflexivity. Qed.
(** From an exit action, the actions of the transition are not executed and the
    target state 2 is not entered, though the machine goes to its child 3. *)
Theorem C68_activate_from_exit_refuted :
  match zdisp 99, zdisp 200 with
  | Ok (_, d1, e1), Ok (_, d2, e2) => e1 = EVT_PROC /\ e2 = EVT_PROC /\ d_st d1 = Some 3 /\ d_st d2 = Some 3 /\
      d_log d1 = d_log zstart ++ [XTrn 0 (Some 2); XExit 0 (Some 200); XEff 1 (ev 1 0); XEntry 2 (Some 102);
                                  XEff 20 (ev 1 0); XEntry 3 (Some 103); XState 3] /\
      d_log d2 = d_log zstart ++ [XTrn 0 (Some 2); XExit 0 (Some 200);
                                  XEff 20 (ev 1 0); XEntry 3 (Some 103); XState 3]
  | _, _ => False
  end.
Proof. vm_compute. repeat split. Qed.

(** * C69 The trace tells how many states a transition exited and entered *)

(** One turn of the dispatcher, which takes one transition: after the guards that
    were tried, the log has the transition and what it did.  If it has a target, the
    record has the numbers of states exited and entered since (the second in a byte);
    without a target no state is exited or entered. *)
Theorem C69_counts :
  forall c M grd fuel l d creation pe l' d' b,
  roundS c M grd keep fuel l d creation pe = Ok (l', Go (d', b)) ->
  exists x src tgt y, d_log d' = d_log d ++ x ++ XTrn src tgt :: y /\ entered x = [] /\ exited x = [] /\
    match tgt with
    | Some _ => nenex l' = (length (entered y) mod 256, length (exited y))
    | None => entered y = [] /\ exited y = []
    end.
Proof.
  intros c M grd fuel l d creation pe l' d' b E. destruct (round_grow c M grd fuel l d creation pe l' d' b E) as (x & src & tgt & y & H1 & H2 & H3 & H4).
  exists x, src, tgt, y. split; [exact H1|]. split; [exact H2|]. split; [exact H3|]. destruct tgt; [|exact H4].
  unfold nenex. destruct H4 as [-> ->]. reflexivity.
Qed.
Definition z13 : dyn := after (on [ev 10 0; ev 8 0]).
Example C69_case :
  match roundS xc xm xgrd keep 20 z0 z13 None (ev 8 0) with
  | Ok (l', Go (d', _)) => nenex l' = (2, 3)%nat /\
      d_log d' = d_log z13 ++ [] ++ XTrn 13 (Some 2) :: [XExit 13 (Some 213); XExit 10 (Some 210); XExit 9 (Some 209);
        XEff 17 (ev 8 0); XEntry 2 (Some 102); XEff 20 (ev 8 0); XEntry 3 (Some 103); XState 3]
  | _ => False
  end.
Proof. vm_compute. split; reflexivity. Qed.

Print Assumptions C69_counts.
Print Assumptions C68_one_call.
Print Assumptions C68_as_alone.
Print Assumptions C68_safe.
Print Assumptions C68_activate_from_action_refuted.
Print Assumptions C68_activate_from_exit_refuted.
