(** C64, C65: what the answer to an event tells, and whose completion transition
    is taken. *)
From Verif Require Import Base L_Base M_Sm S_Sm S_SmWf S_SmRun S_SmCode L_SmWf L_SmSafe L_SmMore L_SmCode P_SmExample.
Local Open Scope nat_scope.

(** * C64 The answer *)
(** The whole account: transitions one after the other, each arriving before the
    next begins, the next only by a completion event, and the answer that goes
    with how it ends. *)
Theorem C64_account :
  forall c M rank home grd, wf_machine c M rank home = true ->
  forall fuel istate iact d pe ars d' e,
  wf_initial c M home istate = true -> arrays_ok c ars -> machine_ok c M home d -> ev_sig pe <> (sm_any c - 2)%N ->
  dispatch c M grd fuel istate iact d pe ars = Ok (d', e) ->
  exists x, d_log d' = d_log d ++ x /\ account c M (marks x) e.
Proof. exact (fun c M rank home grd W => do_account c M rank home W grd). Qed.
Ltac ok_run evs s := apply (x_ok evs s); vm_compute; reflexivity.
(** From state 4 to the final state of 2, whose completion transition leads to 1,
    whose completion transition is not enabled. *)
Example C64_account_case :
  let d := after (on [ev 5 0]) in
  machine_ok xc xm xhome d /\
  match xdisp d (ev 8 0) with
  | Ok (d', e) => e = EVT_NFOUND /\
      marks (skipn (length (d_log d)) (d_log d')) = [XTrn 4 (Some 5); XState 5; XTrn 2 (Some 1); XState 1]
  | Fault _ => False
  end.
Proof. split; [ok_run [ev 5 0] 4 | vm_compute; auto]. Qed.

(** So the last transition or arrival of the call decides the answer: "processed"
    says that the last transition has arrived and no completion event follows, or
    that it was internal; "not found" that no transition was begun, or that the
    last completion event found none; any other code that the last transition
    begun did not arrive. *)
Theorem C64_answer :
  forall c M rank home grd, wf_machine c M rank home = true ->
  forall fuel istate iact d pe ars d' e,
  wf_initial c M home istate = true -> arrays_ok c ars -> machine_ok c M home d -> ev_sig pe <> (sm_any c - 2)%N ->
  dispatch c M grd fuel istate iact d pe ars = Ok (d', e) ->
  exists x, d_log d' = d_log d ++ x /\
    match latest x with
    | None => e = EVT_NFOUND
    | Some (XState s) => e = if completes c M s then EVT_NFOUND else EVT_PROC
    | Some (XTrn _ None) => e = if (0 <? sm_segs c)%nat then EVT_PROC else EX_TSEG
    | Some (XTrn _ (Some _)) =>
      e = CND_NFOUND \/ e = GRD_FALSE \/ (sm_asrt c = false /\ (e = UNKN_STATE \/ e = EX_HLEVEL \/ e = EX_TSEG))
    | _ => False
    end.
Proof. exact (fun c M rank home grd W => do_answer c M rank home W grd). Qed.
(** All four answers occur. *)
Example C64_answer_case :
  let d := after (on []) in
  let told pe := match xdisp d pe with Ok (d', e) => Some (latest (skipn (length (d_log d)) (d_log d')), e) | Fault _ => None end in
  machine_ok xc xm xhome d /\
  told (ev 99 0) = Some (None, EVT_NFOUND) /\ told (ev 12 0) = Some (Some (XState 1), EVT_NFOUND) /\
  told (ev 1 0) = Some (Some (XState 3), EVT_PROC) /\ told (ev 2 0) = Some (Some (XTrn 0 None), EVT_PROC) /\
  told (ev 3 0) = Some (Some (XTrn 0 (Some 7)), CND_NFOUND).
Proof. cbn zeta. split; [ok_run (@nil evt) 0|]. vm_compute. auto 8. Qed.

(** It is not true that "not found" says the event was ignored: in a composite
    state without completion transition, the transition to the final state runs
    its action and arrives, and the answer is "not found". *)
Definition fm : machine :=
  [ VComp None None None [] (Some 1) None None; bs 1 (Some 0) [ tr 1 None (Some 7) (Some 2) ]; VFinal (Some 0) ].
Definition frank (v : nat) : nat := match v with 0 => 0 | _ => 1 end.
Definition fstart : dyn := ok_or blank (sm_run xc fm xgrd 20 0 None blank [OInit xars]).
Theorem C64_ignored_refuted :
  exists c M rank home grd fuel istate ars d pe d' e,
  wf_machine c M rank home = true /\ wf_initial c M home istate = true /\ arrays_ok c ars /\ machine_ok c M home d /\
  ev_sig pe <> (sm_any c - 2)%N /\ dispatch c M grd fuel istate None d pe ars = Ok (d', e) /\
  e = EVT_NFOUND /\ exists x a, d_log d' = d_log d ++ x /\ In (XEff a pe) x /\ d_st d' <> d_st d.
Proof.
  destruct (dispatch xc fm xgrd 20 0 None fstart (ev 1 0) xars) as [[d' e]|] eqn:E; [| vm_compute in E; discriminate].
  exists xc, fm, frank, (fun _ => None), xgrd, 20, 0, xars, fstart, (ev 1 0), d', e.
  assert (wf_machine xc fm frank (fun _ => None) = true) as Wf by (vm_compute; reflexivity).
  assert (wf_initial xc fm (fun _ => None) 0 = true) as Wi by (vm_compute; reflexivity).
  split; [exact Wf|]. split; [exact Wi|]. split; [exact x_ars|]. split.
  { apply (run_machine xc fm frank (fun _ => None) Wf xgrd 20 0 None [OInit xars] fstart 1 Wi); [| vm_compute; reflexivity | vm_compute; reflexivity].
    constructor; [exact x_ars | constructor]. }
  split; [discriminate|]. split; [exact E|]. vm_compute in E. injection E as <- <-. split; [reflexivity|].
  eexists. exists 7. split; [vm_compute; reflexivity|]. split; [vm_compute; auto | discriminate].
Qed.

(** * C65 Completion transitions *)
(** If every state whose completion can be signalled - a basic state with a
    completion transition, a state with a final state in it - has a completion
    transition without guard, then each signal is answered by a completion
    transition of just that state. *)
Theorem C65_owner :
  forall c M rank home grd, wf_machine c M rank home = true ->
  forall fuel istate iact d pe ars d' e y s z,
  wf_initial c M home istate = true -> arrays_ok c ars -> machine_ok c M home d -> ev_sig pe <> (sm_any c - 2)%N ->
  closed c M = true -> dispatch c M grd fuel istate iact d pe ars = Ok (d', e) ->
  d_log d' = d_log d ++ y ++ XState s :: z -> completes c M s = true ->
  exists g src t w, z = g ++ XTrn src t :: w /\ only_guards g /\ owns M s src = true.
Proof. exact (fun c M rank home grd W => do_owner c M rank home W grd). Qed.
(** A composite state and a submachine, both with final states, and a basic
    state with a guarded and an unguarded completion transition. *)
Definition om : machine :=
  [ VComp None None None [ tr 254 None (Some 1) (Some 3) ] (Some 1) None None;
    bs 1 (Some 0) [ tr 1 None (Some 7) (Some 2) ];
    VFinal (Some 0);
    bs 3 None [ tr 254 (Some 1) (Some 2) (Some 0); tr 254 None (Some 3) (Some 4) ];
    VSubm None None None [ tr 254 None (Some 4) (Some 0) ] [] 5;
    VRsm (Some 6) None;
    bs 6 (Some 5) [ tr 2 None None (Some 7) ];
    VFinal (Some 5) ].
Definition orank (v : nat) : nat := match v with 1 | 2 | 6 | 7 => 1 | _ => 0 end.
Definition ohome (v : nat) : option nat := match v with 6 | 7 => Some 5 | _ => None end.
Definition ostart (evs : list evt) : dyn := ok_or blank (sm_run xc om xgrd 20 0 None blank (on evs)).
Lemma o_ok evs s : is_ok (sm_run xc om xgrd 20 0 None blank (on evs)) = true -> d_st (ostart evs) = Some s -> machine_ok xc om ohome (ostart evs).
Proof.
  intros H. unfold ostart. destruct (sm_run xc om xgrd 20 0 None blank (on evs)) as [d|] eqn:E; [| discriminate]. cbn [ok_or].
  intros Es. refine (run_machine xc om orank ohome _ xgrd 20 0 None (on evs) d s _ (x_on evs) E Es); vm_compute; reflexivity.
Qed.
Definition otold (d : dyn) (pe : evt) :=
  match dispatch xc om xgrd 20 0 None d pe xars with
  | Ok (d', e) => (marks (skipn (length (d_log d)) (d_log d')), e)
  | Fault _ => ([], EVT_NFOUND)
  end.
Example C65_owner_case :
  wf_machine xc om orank ohome = true /\ wf_initial xc om ohome 0 = true /\ closed xc om = true /\
  machine_ok xc om ohome (ostart []) /\
  otold (ostart []) (ev 1 0) = ([XTrn 1 (Some 2); XState 2; XTrn 0 (Some 3); XState 3; XTrn 3 (Some 4); XState 6], EVT_PROC) /\
  machine_ok xc om ohome (ostart [ev 1 0]) /\
  otold (ostart [ev 1 0]) (ev 2 0) = ([XTrn 6 (Some 7); XState 7; XTrn 4 (Some 0); XState 1], EVT_PROC).
Proof.
  split; [vm_compute; reflexivity|]. split; [vm_compute; reflexivity|]. split; [vm_compute; reflexivity|].
  split; [apply (o_ok [] 1); vm_compute; reflexivity|]. split; [vm_compute; reflexivity|].
  split; [apply (o_ok [ev 1 0] 6); vm_compute; reflexivity | vm_compute; reflexivity].
Qed.

(** Without that, a state's completion transition may be taken though the state
    is not complete.  First: substate 2 of 0 is not final; when the guard of its
    completion transition is false, that of state 0 is taken. *)
Definition gm : machine :=
  [ VComp None None None [ tr 254 None (Some 1) (Some 3) ] (Some 1) None None;
    bs 1 (Some 0) [ tr 1 None (Some 7) (Some 2) ];
    bs 2 (Some 0) [ tr 254 (Some 1) (Some 2) (Some 1) ];
    bs 3 None [] ].
Definition grank (v : nat) : nat := match v with 1 | 2 => 1 | _ => 0 end.
(** Second: state 3 is the final state of 1, which has no completion transition;
    that of 0 is taken, though 0 has no final state at all. *)
Definition nm : machine :=
  [ VComp None None None [ tr 254 None (Some 1) (Some 4) ] (Some 1) None None;
    VComp None None (Some 0) [] (Some 2) None None;
    bs 2 (Some 1) [ tr 1 None (Some 7) (Some 3) ];
    VFinal (Some 1);
    bs 4 None [] ].
Definition nrank (v : nat) : nat := match v with 1 => 1 | 2 | 3 => 2 | _ => 0 end.
Definition started (M : machine) : dyn := ok_or blank (sm_run xc M xgrd 20 0 None blank [OInit xars]).
Ltac wrong m rk s0 :=
  match goal with |- exists (d : dyn), _ => idtac end;
  destruct (dispatch xc m xgrd 20 0 None (started m) (ev 1 0) xars) as [[d' e]|] eqn:E; [| vm_compute in E; discriminate];
  exists (started m), (ev 1 0), d', e;
  assert (wf_machine xc m rk (fun _ => None) = true) as Wf by (vm_compute; reflexivity);
  assert (wf_initial xc m (fun _ => None) 0 = true) as Wi by (vm_compute; reflexivity);
  split; [exact Wf|]; split; [exact Wi|]; split; [exact x_ars|]; split;
  [ apply (run_machine xc m rk (fun _ => None) Wf xgrd 20 0 None [OInit xars] (started m) s0 Wi);
    [constructor; [exact x_ars | constructor] | vm_compute; reflexivity | vm_compute; reflexivity] |];
  split; [discriminate|]; split; [exact E|].
Theorem C65_guard_refuted :
  exists d pe d' e,
  wf_machine xc gm grank (fun _ => None) = true /\ wf_initial xc gm (fun _ => None) 0 = true /\ arrays_ok xc xars /\
  machine_ok xc gm (fun _ => None) d /\ ev_sig pe <> (sm_any xc - 2)%N /\
  dispatch xc gm xgrd 20 0 None d pe xars = Ok (d', e) /\
  exists y s g src t w, d_log d' = d_log d ++ y ++ XState s :: g ++ XTrn src t :: w /\ only_guards g /\
    child_of gm src s = true /\ is_leaf gm s = true /\ nth_error gm s <> Some (VFinal (Some src)).
Proof.
  wrong gm grank 1. vm_compute in E. injection E as <- <-.
  exists [XTrn 1 (Some 2); XExit 1 (Some 201); XEff 7 (ev 1 0); XEntry 2 (Some 102)], 2, [XGrd 1 (ev 254 0) false], 0, (Some 3). eexists.
  split; [vm_compute; reflexivity|]. split; [repeat constructor|]. repeat split; discriminate.
Qed.
Theorem C65_nested_refuted :
  exists d pe d' e,
  wf_machine xc nm nrank (fun _ => None) = true /\ wf_initial xc nm (fun _ => None) 0 = true /\ arrays_ok xc xars /\
  machine_ok xc nm (fun _ => None) d /\ ev_sig pe <> (sm_any xc - 2)%N /\
  dispatch xc nm xgrd 20 0 None d pe xars = Ok (d', e) /\
  exists y s src t w, d_log d' = d_log d ++ y ++ XState s :: XTrn src t :: w /\
    forall f, nth_error nm f <> Some (VFinal (Some src)).
Proof.
  wrong nm nrank 2. vm_compute in E. injection E as <- <-.
  exists [XTrn 2 (Some 3); XExit 2 (Some 202); XEff 7 (ev 1 0); XEntry 3 None], 3, 0, (Some 4). eexists.
  split; [vm_compute; reflexivity|]. intros f. do 5 (destruct f as [| f]; [discriminate|]). destruct f; discriminate.
Qed.

Print Assumptions C64_account.
Print Assumptions C64_answer.
Print Assumptions C64_ignored_refuted.
Print Assumptions C65_owner.
Print Assumptions C65_guard_refuted.
Print Assumptions C65_nested_refuted.
