(** C42-C51: the state machine engine. *)
From Verif Require Import Base L_Base M_Sm S_Sm S_SmWf S_SmRun L_Sm L_SmStep L_SmWf L_SmSafe L_SmProps L_SmDisp L_SmDo L_SmLog L_SmReplay L_SmMore P_SmExample.
Local Open Scope nat_scope.

(** The hypotheses are the same in most theorems: a well-formed machine, RAM as
    it is between events (C44: every reachable RAM), any contents of the work
    arrays, any guards, any event but the creation event. *)

(** * C42 The innermost enabled transition is taken *)
Theorem C42_innermost_first :
  forall c M rank home grd, wf_machine c M rank home = true ->
  forall fuel istate iact d pe ars d' e cs l,
  wf_initial c M home istate = true -> arrays_ok c ars -> machine_ok c M home d -> ev_sig pe <> (sm_any c - 2)%N ->
  dispatch c M grd fuel istate iact d pe ars = Ok (d', e) -> d_st d = Some cs -> chain M (d_dyp d) (Some cs) l ->
  (forall src t d0, selected M grd pe d l src t d0 ->
     (exists g, d0 = say d g /\ only_guards g) /\ exists x, d_log d' = d_log d0 ++ XTrn src (t_tgt t) :: x) /\
  (forall dn, nothing M grd pe d l dn -> d' = dn /\ e = EVT_NFOUND /\ exists g, dn = say d g /\ only_guards g) /\
  ((exists src t d0, selected M grd pe d l src t d0) \/ exists dn, nothing M grd pe d l dn).
Proof. exact (fun c M rank home grd W => do_takes c M rank home W grd). Qed.
Ltac ok_run evs s := apply (x_ok evs s); vm_compute; reflexivity.
Ltac is_chain := repeat (econstructor; [reflexivity|]); constructor.
(** In state 4, nested in 2, event 7 is for the outer state. *)
Example C42_outer :
  let d := after (on [ev 5 0]) in
  machine_ok xc xm xhome d /\ d_st d = Some 4 /\ chain xm (d_dyp d) (Some 4) [4; 2] /\
  selected xm xgrd (ev 7 0) d [4; 2] 2 (tr 7 None (Some 7) (Some 0)) d /\
  match xdisp d (ev 7 0) with Ok (d', e) => d_st d' = Some 0 /\ e = EVT_PROC | Fault _ => False end.
Proof.
  split; [ok_run [ev 5 0] 4|]. split; [vm_compute; reflexivity|]. split; [is_chain|]. split.
  - exists [4], [], (after (on [ev 5 0])). split; [reflexivity|]. split; [constructor|].
    exists [], [], (after (on [ev 5 0])). split; [reflexivity|]. split; [constructor | reflexivity].
  - vm_compute. auto.
Qed.
(** In state 0 the guard of the first transition for event 2 is false and the
    second is taken. *)
Example C42_guarded :
  let d := after (on []) in
  machine_ok xc xm xhome d /\ d_st d = Some 0 /\ chain xm (d_dyp d) (Some 0) [0] /\
  selected xm xgrd (ev 2 0) d [0] 0 (tr 2 None (Some 3) None) (say d [XGrd 1 (ev 2 0) false]) /\
  match xdisp d (ev 2 0) with
  | Ok (d', e) => d_log d' = d_log d ++ [XGrd 1 (ev 2 0) false; XTrn 0 None; XEff 3 (ev 2 0)]
  | Fault _ => False
  end.
Proof.
  split; [ok_run (@nil evt) 0|]. split; [vm_compute; reflexivity|]. split; [is_chain|]. split.
  - exists [], [], (after (on [])). split; [reflexivity|]. split; [constructor|].
    exists [tr 2 (Some 1) (Some 2) None], [], (say (after (on [])) [XGrd 1 (ev 2 0) false]). split; [reflexivity|].
    split; [| reflexivity]. econstructor; [reflexivity | reflexivity | constructor].
  - vm_compute. reflexivity.
Qed.
(** Event 13 has no transition in state 0. *)
Example C42_none :
  let d := after (on []) in
  nothing xm xgrd (ev 13 0) d [0] d /\
  match xdisp d (ev 13 0) with Ok (d', e) => e = EVT_NFOUND /\ d_log d' = d_log d | Fault _ => False end.
Proof. split; [constructor | vm_compute; auto]. Qed.

(** * C43 Exit, transition and entry actions run in statechart order *)
(** [ts] is the target the path of the transition leads to, [l] its actions not
    run yet, [d1] RAM and log at this point.  The active states in which the
    target is not are exited, innermost first; then the actions run; then the
    states that contain the target, and the target, are entered, outermost first.
    A transition from a state to itself exits and enters it. *)
Theorem C43_order :
  forall c M rank home grd, wf_machine c M rank home = true ->
  forall fuel istate iact d pe ars d' e cs d1 ts l b lc lt,
  wf_initial c M home istate = true -> arrays_ok c ars -> machine_ok c M home d -> ev_sig pe <> (sm_any c - 2)%N ->
  dispatch c M grd fuel istate iact d pe ars = Ok (d', e) -> d_st d = Some cs ->
  visits c M grd pe d false (mkP d1 ts l b) -> is_target M ts = true ->
  chain M (d_dyp d1) (Some cs) lc -> chain M (d_dyp d1) (Some ts) lt ->
  exists out inn both rest, lc = out ++ both /\ lt = inn ++ both /\
    (if cs =? ts then out = [cs] /\ inn = [cs] else forall s, In s out -> ~ In s inn) /\
    d_log d' = d_log d1 ++ map (fun s => XExit s (exit_of M s)) out ++ map (fun a => XEff a pe) l ++
               map (fun s => XEntry s (entry_of M s)) (rev inn) ++ rest.
Proof. exact (fun c M rank home grd W => do_order c M rank home W grd). Qed.
(** Likewise, without exits, on the default transitions of the composite states
    entered. *)
Theorem C43_default_order :
  forall c M rank home grd, wf_machine c M rank home = true ->
  forall fuel istate iact d pe ars d' e d1 ts l b es,
  wf_initial c M home istate = true -> arrays_ok c ars -> machine_ok c M home d -> ev_sig pe <> (sm_any c - 2)%N ->
  dispatch c M grd fuel istate iact d pe ars = Ok (d', e) ->
  visits c M grd pe d true (mkP d1 ts l b) -> is_target M ts = true -> below M (Some b) (Some ts) es ->
  exists rest, d_log d' = d_log d1 ++ map (fun a => XEff a pe) l ++ map (fun s => XEntry s (entry_of M s)) (rev es) ++ rest.
Proof. exact (fun c M rank home grd W => do_order_inner c M rank home W grd). Qed.
(** From the leaf 13 in 10 in 9 to the composite state 2 and its default child. *)
Example C43_order_case :
  let d := after (on [ev 10 0; ev 8 0]) in let pe := ev 8 0 in let d1 := say d [XTrn 13 (Some 2)] in
  machine_ok xc xm xhome d /\ d_st d = Some 13 /\ visits xc xm xgrd pe d false (mkP d1 2 [17] 13) /\
  chain xm (d_dyp d1) (Some 13) [13; 10; 9] /\ chain xm (d_dyp d1) (Some 2) [2] /\
  match xdisp d pe with
  | Ok (d', e) => d_log d' = d_log d1 ++ [XExit 13 (Some 213); XExit 10 (Some 210); XExit 9 (Some 209); XEff 17 pe;
                                         XEntry 2 (Some 102); XEff 20 pe; XEntry 3 (Some 103); XState 3]
  | Fault _ => False
  end.
Proof.
  split; [ok_run [ev 10 0; ev 8 0] 13|]. split; [vm_compute; reflexivity|]. split; [| split; [is_chain | split; [is_chain|]]].
  - eapply (visit_path xc xm xgrd _ _ 13 [13; 10; 9] 13 (tr 8 None (Some 17) (Some 2))); [reflexivity | is_chain | | reflexivity | cbv; lia | constructor].
    exists [], [10; 9], (after (on [ev 10 0; ev 8 0])). split; [reflexivity|]. split; [constructor|].
    exists [], [], (after (on [ev 10 0; ev 8 0])). split; [reflexivity|]. split; [constructor | reflexivity].
  - vm_compute. reflexivity.
Qed.

(** An observer of exits and entries who knows the active states sees only exits
    of the innermost active state and entries of states directly in it, and after
    any sequence of events has the active configuration. *)
Theorem C43_configuration :
  forall c M rank home grd, wf_machine c M rank home = true -> single_use M = true ->
  forall fuel istate iact d pe ars d' e cs lc,
  wf_initial c M home istate = true -> arrays_ok c ars -> machine_ok c M home d -> ev_sig pe <> (sm_any c - 2)%N ->
  dispatch c M grd fuel istate iact d pe ars = Ok (d', e) -> e = EVT_PROC \/ e = EVT_NFOUND ->
  d_st d = Some cs -> chain M (d_dyp d) (Some cs) lc ->
  exists x s ln, d_log d' = d_log d ++ x /\ d_st d' = Some s /\ chain M (d_dyp d') (Some s) ln /\ replay M lc x = Some ln.
Proof. exact (fun c M rank home grd W S1 => do_replay c M rank home W S1 grd). Qed.
Theorem C43_life :
  forall c M rank home grd, wf_machine c M rank home = true -> single_use M = true ->
  forall fuel istate iact ars evs d0 e0 d' es,
  wf_initial c M home istate = true -> arrays_ok c ars ->
  Forall (fun ea => ev_sig (fst ea) <> (sm_any c - 2)%N /\ arrays_ok c (snd ea)) evs ->
  sm_init c M grd fuel istate iact blank ars = Ok (d0, e0) -> feed c M grd fuel istate iact d0 evs = Ok (d', es) ->
  Forall (fun e => e = EVT_PROC \/ e = EVT_NFOUND) (e0 :: es) ->
  exists s ln, d_st d' = Some s /\ chain M (d_dyp d') (Some s) ln /\ replay M [] (d_log d') = Some ln.
Proof. exact (fun c M rank home grd W S1 => life_replay c M rank home W grd S1). Qed.
Example C43_life_case :
  match sm_init xc xm xgrd 20 0 None blank xars with
  | Ok (d0, e0) =>
    match feed xc xm xgrd 20 0 None d0 (map (fun e => (e, xars)) [ev 10 0; ev 8 0; ev 7 0; ev 9 0; ev 8 0; ev 7 0; ev 6 0; ev 8 0]) with
    | Ok (d', es) => d_st d' = Some 3 /\ Forall (fun e => e = EVT_PROC) (e0 :: es) /\ replay xm [] (d_log d') = Some [3; 2]
    | Fault _ => False
    end
  | Fault _ => False
  end.
Proof. vm_compute. repeat split; repeat constructor. Qed.

(** With a submachine used twice this is not so: here the machine goes from one
    use, state 1, to the other, state 2, and neither is 1 exited nor 2 entered. *)
Definition wm : machine :=
  [ bs 0 None [ tr 1 None (Some 1) (Some 1) ];
    VSubm (Some 101) (Some 201) None [ tr 2 None (Some 2) (Some 2) ] [] 3;
    VSubm (Some 102) (Some 202) None [] [] 3;
    VRsm (Some 4) None; bs 4 (Some 3) [] ].
Definition wrank (v : nat) : nat := match v with 4 => 1 | _ => 0 end.
Definition whome (v : nat) : option nat := match v with 4 => Some 3 | _ => None end.
Theorem C43_shared_submachine_refuted :
  exists c M rank home grd fuel istate ops d pe ars d' x s m1 m2,
  wf_machine c M rank home = true /\ wf_initial c M home istate = true /\ Forall (smop_ok c) ops /\ arrays_ok c ars /\
  sm_run c M grd fuel istate None blank ops = Ok d /\ dispatch c M grd fuel istate None d pe ars = Ok (d', EVT_PROC) /\
  d_st d = Some s /\ chain M (d_dyp d) (Some s) [s; m1] /\ d_st d' = Some s /\ chain M (d_dyp d') (Some s) [s; m2] /\
  m1 <> m2 /\ d_log d' = d_log d ++ x /\ ~ In m1 (exited x) /\ ~ In m2 (entered x).
Proof.
  destruct (sm_run xc wm xgrd 20 0 None blank (on [ev 1 0])) as [d|] eqn:E1; [| vm_compute in E1; discriminate].
  destruct (dispatch xc wm xgrd 20 0 None d (ev 2 0) xars) as [[d' e]|] eqn:E2; [| vm_compute in E1; injection E1 as <-; vm_compute in E2; discriminate].
  exists xc, wm, wrank, whome, xgrd, 20, 0, (on [ev 1 0]), d, (ev 2 0), xars, d', (skipn (length (d_log d)) (d_log d')), 4, 1, 2.
  split; [vm_compute; reflexivity|]. split; [vm_compute; reflexivity|]. split; [apply x_on|]. split; [exact x_ars|].
  split; [exact E1|]. rewrite E2. vm_compute in E1. injection E1 as <-. vm_compute in E2. injection E2 as <- <-.
  split; [reflexivity|]. split; [reflexivity|]. split; [is_chain|]. split; [reflexivity|]. split; [is_chain|].
  split; [discriminate|]. split; [reflexivity|]. split; vm_compute; intros H; repeat (destruct H as [H | H]; [discriminate|]); exact H.
Qed.

(** The whole dispatch is the one of the statechart semantics of S_Sm. *)
Theorem C43_semantics :
  forall c M rank home grd, wf_machine c M rank home = true ->
  forall fuel istate iact d pe ars d' e,
  wf_initial c M home istate = true -> arrays_ok c ars -> ram_ok c M home d ->
  (if (ev_sig pe =? sm_any c - 2)%N then d_st d = None \/ machine_ok c M home d else machine_ok c M home d) ->
  dispatch c M grd fuel istate iact d pe ars = Ok (d', e) -> uml_dispatch c M grd istate iact d pe d' e.
Proof.
  intros c M rank home grd W fuel istate iact d pe ars d' e Hi Ha Hr Hm H.
  assert (ready c M home d) as Hd.
  { destruct (ev_sig pe =? sm_any c - 2)%N; [destruct Hm as [E | Hm]|]; [| apply machine_ready, Hm ..]. split; [exact Hr | rewrite E; exact I]. }
  assert (d_st d = None -> ev_sig pe = (sm_any c - 2)%N) as Hn.
  { intros E. destruct (N.eqb_spec (ev_sig pe) (sm_any c - 2)) as [K | K]; [exact K|]. destruct Hm as (_ & s & Es & _). congruence. }
  exact (proj1 (proj2 (dispatch_safe c M rank home W grd fuel istate iact d pe ars Hi Ha Hd Hn) d' e H)).
Qed.
Example C43_semantics_case : ram_ok xc xm xhome blank /\ is_ok (sm_init xc xm xgrd 20 0 None blank xars) = true.
Proof. split; [constructor; cbn; discriminate | vm_compute; reflexivity]. Qed.

(** * C44 The state machine always rests in a leaf state *)
Theorem C44_leaf :
  forall c M rank home grd, wf_machine c M rank home = true ->
  forall fuel istate iact ops d s, wf_initial c M home istate = true -> Forall (smop_ok c) ops ->
  sm_run c M grd fuel istate iact blank ops = Ok d -> d_st d = Some s ->
  is_leaf M s = true /\ machine_ok c M home d.
Proof.
  intros c M rank home grd W fuel istate iact ops d s Hi Ho H Es.
  pose proof (run_machine c M rank home W grd fuel istate iact ops d s Hi Ho H Es) as K. split; [| exact K].
  destruct K as (_ & s' & Es' & Hl & _). congruence.
Qed.
(** After a successful initialisation there is always an active state. *)
Theorem C44_active :
  forall c M rank home grd, wf_machine c M rank home = true ->
  forall fuel istate iact ars d e, wf_initial c M home istate = true -> arrays_ok c ars ->
  sm_init c M grd fuel istate iact blank ars = Ok (d, e) -> e = EVT_PROC \/ e = EVT_NFOUND -> d_st d <> None.
Proof.
  intros c M rank home grd W fuel istate iact ars d e Hi Ha H He. destruct (initial_kind _ _ _ _ Hi) as [Hk Hh].
  destruct (dispatch_safe c M rank home W grd fuel istate iact blank (evCreation c) ars Hi Ha (blank_ready c M home) (fun _ => eq_refl)) as [_ K].
  destruct (K _ _ H) as [(r & H1 & H2) _]. change (ev_sig (evCreation c)) with (sm_any c - 2)%N in H1. rewrite N.eqb_refl in H1.
  pose proof (create_code _ _ _ _ _ _ _ _ H1) as Hc.
  pose proof (L_SmKeep.create_wf _ _ _ _ _ W _ _ _ _ _ H1 (proj1 (blank_ready c M home)) Hk Hh) as Hw.
  destruct r as [d1 | d1 | d1 e1].
  - pose proof (L_SmKeep.finish_wf _ _ _ _ _ W _ _ _ H2 Hw) as (_ & s & -> & _). discriminate.
  - pose proof (L_SmKeep.finish_wf _ _ _ _ _ W _ _ _ H2 Hw) as (_ & s & -> & _). discriminate.
  - exfalso. inversion H2; subst. destruct Hc, He; congruence.
Qed.
Example C44_case :
  Forall (smop_ok xc) (on [ev 9 0; ev 8 0; ev 3 4; ev 1 0; ev 8 0; ev 8 0; ev 13 1]) /\
  match sm_run xc xm xgrd 20 0 None blank (on [ev 9 0; ev 8 0; ev 8 0; ev 13 1; ev 8 0; ev 8 0]) with
  | Ok d => d_st d = Some 1
  | Fault _ => False
  end.
Proof. split; [apply x_on | vm_compute; reflexivity]. Qed.

(** * C45 Internal transitions only run their action *)
Theorem C45_internal :
  forall c M rank home grd, wf_machine c M rank home = true ->
  forall fuel istate iact d pe ars d' e cs l src t d0,
  wf_initial c M home istate = true -> arrays_ok c ars -> machine_ok c M home d -> ev_sig pe <> (sm_any c - 2)%N ->
  dispatch c M grd fuel istate iact d pe ars = Ok (d', e) -> d_st d = Some cs -> chain M (d_dyp d) (Some cs) l ->
  selected M grd pe d l src t d0 -> t_tgt t = None -> 0 < sm_segs c ->
  e = EVT_PROC /\ exists g, only_guards g /\ d' = say d (g ++ XTrn src None :: map (fun a => XEff a pe) (act1 (t_act t))).
Proof. exact (fun c M rank home grd W => do_internal c M rank home W grd). Qed.
Example C45_case :
  let d := after (on []) in
  selected xm xgrd (ev 2 2) d [0] 0 (tr 2 (Some 1) (Some 2) None) (say d [XGrd 1 (ev 2 2) true]) /\
  match xdisp d (ev 2 2) with
  | Ok (d', e) => e = EVT_PROC /\ d_st d' = Some 0 /\ d_log d' = d_log d ++ [XGrd 1 (ev 2 2) true; XTrn 0 None; XEff 2 (ev 2 2)]
  | Fault _ => False
  end.
Proof.
  split; [| vm_compute; auto]. exists [], [], (after (on [])). split; [reflexivity|]. split; [constructor|].
  exists [], [tr 2 None (Some 3) None], (after (on [])). split; [reflexivity|]. split; [constructor | split; reflexivity].
Qed.

(** * C46 Choice and junction take the first true branch *)
(** At any choice or junction [v] passed in the processing of the event, with the
    actions [l] not run yet: [before] is the log when the branch guards are
    evaluated.  At a choice [l] has run. *)
Theorem C46_first_branch :
  forall c M rank home grd, wf_machine c M rank home = true ->
  forall fuel istate iact d pe ars d' e m d1 v l b tbl choice,
  wf_initial c M home istate = true -> arrays_ok c ars -> machine_ok c M home d -> ev_sig pe <> (sm_any c - 2)%N ->
  dispatch c M grd fuel istate iact d pe ars = Ok (d', e) ->
  visits c M grd pe d m (mkP d1 v l b) -> nth_error M v = Some (if choice : bool then VChoice tbl else VCond tbl) ->
  let before := say d1 (if choice then map (fun a => XEff a pe) l else []) in
  let pending := if choice then [] else l in
  (forall t d2 v1, first_of grd pe before (guarded tbl) t d2 -> t_tgt t = Some v1 ->
     (exists g, d2 = say before g /\ only_guards g) /\ (exists x, d_log d' = d_log d2 ++ x) /\
     (length pending < sm_segs c -> visits c M grd pe d m (mkP d2 v1 (pending ++ act1 (t_act t)) b)) /\
     (sm_segs c <= length pending -> sm_asrt c = false /\ d' = d2 /\ e = EX_TSEG)) /\
  (forall dn, denied grd pe before (guarded tbl) dn ->
     (exists g, dn = say before g /\ only_guards g) /\ d' = dn /\ e = CND_NFOUND /\ d_st d' = d_st d) /\
  ((exists t d2, first_of grd pe before (guarded tbl) t d2 /\ In t tbl) \/ exists dn, denied grd pe before (guarded tbl) dn).
Proof. exact (fun c M rank home grd W => do_branch c M rank home W grd). Qed.
(** Junction: guards, then exits and all the actions.  Choice: the action of the
    first segment before the guards. *)
Example C46_junction_case :
  let d := after (on []) in let pe := ev 3 4 in
  visits xc xm xgrd pe d false (mkP (say d [XTrn 0 (Some 7)]) 7 [3] 0) /\
  match xdisp d pe with
  | Ok (d', e) => d_log d' = d_log d ++ [XTrn 0 (Some 7); XGrd 1 pe false; XGrd 2 pe true; XExit 0 (Some 200); XEff 3 pe; XEff 23 pe;
      XEntry 9 (Some 109); XEntry 10 (Some 110); XEntry 13 (Some 113); XState 13]
  | Fault _ => False
  end.
Proof.
  split; [| vm_compute; reflexivity].
  eapply (visit_path xc xm xgrd _ _ 0 [0] 0 (tr 3 None (Some 3) (Some 7))); [reflexivity | is_chain | | reflexivity | cbv; lia | constructor].
  exists [], [], (after (on [])). split; [reflexivity|]. split; [constructor|].
  exists [], [], (after (on [])). split; [reflexivity|]. split; [constructor | reflexivity].
Qed.
Example C46_choice_case :
  let d := after (on []) in let pe := ev 4 4 in
  match xdisp d pe with
  | Ok (d', e) => d_log d' = d_log d ++ [XTrn 0 (Some 8); XEff 4 pe; XGrd 1 pe false; XGrd 2 pe true; XExit 0 (Some 200); XEff 25 pe;
      XEntry 9 (Some 109); XEntry 10 (Some 110); XEntry 13 (Some 113); XState 13]
  | Fault _ => False
  end.
Proof. vm_compute. reflexivity. Qed.
Example C46_no_branch_case :
  let d := after (on []) in let pe := ev 4 0 in
  match xdisp d pe with
  | Ok (d', e) => e = CND_NFOUND /\ d_st d' = Some 0 /\ d_log d' = d_log d ++ [XTrn 0 (Some 8); XEff 4 pe; XGrd 1 pe false; XGrd 2 pe false]
  | Fault _ => False
  end.
Proof. vm_compute. auto. Qed.

(** * C47 Shallow history remembers the last active direct substate *)
(** After any sequence of operations the history [h] of region [q] holds the
    direct substate of [q] exited last; what it held before if none was. *)
Theorem C47_remembers :
  forall c M rank home grd, wf_machine c M rank home = true ->
  forall fuel istate iact h q dft, wf_initial c M home istate = true ->
  nth_error M h = Some (VHist false (Some q) dft) ->
  forall ops d, Forall (smop_ok c) ops -> (forall h', In (OClear h') ops -> h' <> h) ->
  sm_run c M grd fuel istate iact blank ops = Ok d ->
  d_hist d h = last_exit M q (d_log d).
Proof.
  intros c M rank home grd W fuel istate iact h q dft Hi Hh ops d Ho Hc H.
  destruct (run_remembers c M rank home W grd fuel istate iact h false q dft Hi Hh ltac:(discriminate) ops blank d Ho Hc (blank_ready c M home) H) as (x & E & K).
  cbn in E. subst x. rewrite K. destruct (last_exit M q (d_log d)); reflexivity.
Qed.
(** The same from any RAM, for example after the history was cleared. *)
Theorem C47_remembers_since :
  forall c M rank home grd, wf_machine c M rank home = true ->
  forall fuel istate iact h q dft, wf_initial c M home istate = true ->
  nth_error M h = Some (VHist false (Some q) dft) ->
  forall ops d d', Forall (smop_ok c) ops -> (forall h', In (OClear h') ops -> h' <> h) -> machine_ok c M home d ->
  sm_run c M grd fuel istate iact d ops = Ok d' ->
  exists x, d_log d' = d_log d ++ x /\
    d_hist d' h = match last_exit M q x with Some s => Some s | None => d_hist d h end.
Proof.
  intros c M rank home grd W fuel istate iact h q dft Hi Hh ops d d' Ho Hc Hm H.
  exact (run_remembers c M rank home W grd fuel istate iact h false q dft Hi Hh ltac:(discriminate) ops d d' Ho Hc (machine_ready c M home d Hm) H).
Qed.
(** A transition whose path comes to a history (shallow or deep) that holds the
    state [s] enters [s]. *)
Theorem C47_returns :
  forall c M rank home grd, wf_machine c M rank home = true ->
  forall fuel istate iact d pe ars d' e cs d1 h l b deep q dft s lc ls,
  wf_initial c M home istate = true -> arrays_ok c ars -> machine_ok c M home d -> ev_sig pe <> (sm_any c - 2)%N ->
  dispatch c M grd fuel istate iact d pe ars = Ok (d', e) -> d_st d = Some cs ->
  visits c M grd pe d false (mkP d1 h l b) -> nth_error M h = Some (VHist deep (Some q) dft) ->
  d_hist d h = Some s -> is_target M s = true ->
  chain M (d_dyp d1) (Some cs) lc -> chain M (d_dyp d1) (Some s) ls ->
  exists out inn both rest, lc = out ++ both /\ ls = inn ++ both /\
    (if cs =? s then out = [cs] /\ inn = [cs] else forall s, In s out -> ~ In s inn) /\
    d_log d' = d_log d1 ++ map (fun s => XExit s (exit_of M s)) out ++ map (fun a => XEff a pe) l ++
               map (fun s => XEntry s (entry_of M s)) (rev inn) ++ rest.
Proof. exact (fun c M rank home grd W => do_return c M rank home W grd). Qed.
(** A history that was never set: its default transition; without one, the
    region is entered by its own default. *)
Theorem C47_default :
  forall c M rank home grd, wf_machine c M rank home = true ->
  forall fuel istate iact d pe ars d' e cs d1 h l b deep q dft,
  wf_initial c M home istate = true -> arrays_ok c ars -> machine_ok c M home d -> ev_sig pe <> (sm_any c - 2)%N ->
  dispatch c M grd fuel istate iact d pe ars = Ok (d', e) -> d_st d = Some cs ->
  visits c M grd pe d false (mkP d1 h l b) -> nth_error M h = Some (VHist deep (Some q) dft) -> d_hist d h = None ->
  match t_tgt dft with
  | None => visits c M grd pe d false (mkP d1 q l q) /\ is_target M q = true
  | Some v1 =>
    (forall d2, enabled grd pe d1 dft d2 -> length l < sm_segs c -> visits c M grd pe d false (mkP d2 v1 (l ++ act1 (t_act dft)) q)) /\
    (forall g, t_grd dft = Some g -> grd g pe (d_log d1) = false ->
       d' = say d1 [XGrd g pe false] /\ e = GRD_FALSE /\ d_st d' = d_st d)
  end.
Proof. exact (fun c M rank home grd W => do_history_default c M rank home W grd). Qed.
(** Region 2 left from its state 3 and entered through the history 6: back in 3;
    before that it goes to the default 4. *)
Example C47_case :
  (forall h', In (OClear h') (on [ev 1 0; ev 7 0]) -> h' <> 6) /\
  last_exit xm 2 (d_log (after (on [ev 1 0; ev 7 0]))) = Some 3 /\
  match xdisp (after (on [ev 1 0; ev 7 0])) (ev 5 0), xdisp (after (on [])) (ev 5 0) with
  | Ok (d1, _), Ok (d2, _) => d_st d1 = Some 3 /\ d_st d2 = Some 4
  | _, _ => False
  end.
Proof.
  split; [intros h' Hi; cbn in Hi; repeat (destruct Hi as [Hi | Hi]; [discriminate|]); destruct Hi|].
  split; vm_compute; auto.
Qed.

(** * C48 Deep history remembers the last active leaf *)
(** For regions without submachine states, and for every region when each
    submachine is used once. *)
Theorem C48_remembers :
  forall c M rank home grd, wf_machine c M rank home = true ->
  forall fuel istate iact h q dft, wf_initial c M home istate = true ->
  nth_error M h = Some (VHist true (Some q) dft) -> clear_region c M q = true ->
  forall ops d, Forall (smop_ok c) ops -> (forall h', In (OClear h') ops -> h' <> h) ->
  sm_run c M grd fuel istate iact blank ops = Ok d ->
  d_hist d h = last_in c M q (d_log d).
Proof.
  intros c M rank home grd W fuel istate iact h q dft Hi Hh Hp ops d Ho Hc H.
  destruct (run_remembers c M rank home W grd fuel istate iact h true q dft Hi Hh (fun _ => Hp) ops blank d Ho Hc (blank_ready c M home) H) as (x & E & K).
  cbn in E. subst x. rewrite K. destruct (last_in c M q (d_log d)); reflexivity.
Qed.
Theorem C48_remembers_since :
  forall c M rank home grd, wf_machine c M rank home = true ->
  forall fuel istate iact h q dft, wf_initial c M home istate = true ->
  nth_error M h = Some (VHist true (Some q) dft) -> clear_region c M q = true ->
  forall ops d d', Forall (smop_ok c) ops -> (forall h', In (OClear h') ops -> h' <> h) -> machine_ok c M home d ->
  sm_run c M grd fuel istate iact d ops = Ok d' ->
  exists x, d_log d' = d_log d ++ x /\
    d_hist d' h = match last_in c M q x with Some s => Some s | None => d_hist d h end.
Proof.
  intros c M rank home grd W fuel istate iact h q dft Hi Hh Hp ops d d' Ho Hc Hm H.
  exact (run_remembers c M rank home W grd fuel istate iact h true q dft Hi Hh (fun _ => Hp) ops d d' Ho Hc (machine_ready c M home d Hm) H).
Qed.
(** The way back is C47_returns: what a deep history holds is a leaf state, so
    this state itself is entered again. *)
Theorem C48_leaf :
  forall c M home d h q dft s, machine_ok c M home d -> nth_error M h = Some (VHist true (Some q) dft) -> d_hist d h = Some s ->
  is_leaf M s = true /\ is_target M s = true.
Proof.
  intros c M home d h q dft s (Hr & _) Hh Es. destruct (ro_hist _ _ _ _ Hr _ _ _ _ _ Hh Es) as [_ [Hl _]]. split; [exact Hl|].
  unfold is_leaf in Hl. unfold is_target. destruct (nth_error M s) as [[]|]; congruence.
Qed.
(** Region 9 was left from 13, two levels down. *)
Example C48_case :
  let d := after (on [ev 10 0; ev 8 0; ev 7 0]) in
  clear_region xc xm 9 = true /\ last_in xc xm 9 (d_log d) = Some 13 /\
  match xdisp d (ev 9 0) with
  | Ok (d', _) => d_st d' = Some 13 /\ d_log d' = d_log d ++ [XTrn 0 (Some 12); XExit 0 (Some 200); XEff 9 (ev 9 0);
      XEntry 9 (Some 109); XEntry 10 (Some 110); XEntry 13 (Some 113); XState 13]
  | Fault _ => False
  end.
Proof. vm_compute. auto. Qed.

(** A region with a submachine state, 3, left from within the submachine. *)
Definition um (tail : vertex) : machine :=
  [ bs 0 None [ tr 1 None (Some 1) (Some 3); tr 2 None (Some 2) (Some 4); tr 3 None (Some 3) (Some 2) ];
    VComp (Some 101) (Some 201) None [ tr 7 None None (Some 0) ] (Some 8) None (Some 2);
    VHist true (Some 1) (tr 0 None None None);
    VSubm (Some 103) (Some 203) (Some 1) [] [] 5;
    tail;
    VRsm (Some 6) None; bs 6 (Some 5) [ tr 9 None None (Some 7) ]; bs 7 (Some 5) []; bs 8 (Some 1) [] ].
Definition urank (v : nat) : nat := match v with 3 | 5 | 8 => 1 | 6 | 7 => 2 | _ => 0 end.
Definition uhome (v : nat) : option nat := match v with 6 | 7 => Some 5 | _ => None end.
Definition um1 : machine := um (bs 4 None []).
Example C48_submachine_case :
  wf_machine xc um1 urank uhome = true /\ clear_region xc um1 1 = true /\ plain xc um1 1 = false /\
  match sm_run xc um1 xgrd 20 0 None blank (on [ev 1 0; ev 9 0; ev 7 0]) with
  | Ok d => d_st d = Some 0 /\ last_in xc um1 1 (d_log d) = Some 7 /\ d_hist d 2 = Some 7 /\
    match dispatch xc um1 xgrd 20 0 None d (ev 3 0) xars with
    | Ok (d', _) => d_st d' = Some 7 /\ d_log d' = d_log d ++ [XTrn 0 (Some 2); XExit 0 (Some 200); XEff 3 (ev 3 0);
        XEntry 1 (Some 101); XEntry 3 (Some 103); XEntry 7 (Some 107); XState 7]
    | Fault _ => False
    end
  | Fault _ => False
  end.
Proof. vm_compute. auto 10. Qed.
(** When the submachine is also used outside the region, by state 4, a
    transition to the region's history can lead out of it: to state 4. *)
Definition um2 : machine := um (VSubm (Some 104) (Some 204) None [ tr 7 None None (Some 0) ] [] 5).
Theorem C48_shared_submachine_refuted :
  exists c M rank home grd fuel istate ops d src pe ars d' x s q h dft en ex tbl a,
  wf_machine c M rank home = true /\ wf_initial c M home istate = true /\ Forall (smop_ok c) ops /\ arrays_ok c ars /\
  nth_error M h = Some (VHist true (Some q) dft) /\ sm_run c M grd fuel istate None blank ops = Ok d /\ d_hist d h = Some s /\
  d_st d = Some src /\ nth_error M src = Some (VBasic en ex None tbl) /\
  In (mkT (ev_sig pe) None a (Some h)) tbl /\
  dispatch c M grd fuel istate None d pe ars = Ok (d', EVT_PROC) /\ d_st d' = Some s /\
  d_log d' = d_log d ++ x /\ ~ In q (entered x) /\ (forall l, chain M (d_dyp d') (Some s) l -> ~ In q l).
Proof.
  destruct (sm_run xc um2 xgrd 20 0 None blank (on [ev 1 0; ev 9 0; ev 7 0; ev 2 0; ev 7 0])) as [d|] eqn:E1; [| vm_compute in E1; discriminate].
  destruct (dispatch xc um2 xgrd 20 0 None d (ev 3 0) xars) as [[d' e]|] eqn:E2; [| vm_compute in E1; injection E1 as <-; vm_compute in E2; discriminate].
  exists xc, um2, urank, uhome, xgrd, 20, 0, (on [ev 1 0; ev 9 0; ev 7 0; ev 2 0; ev 7 0]), d, 0, (ev 3 0), xars, d',
    (skipn (length (d_log d)) (d_log d')), 7, 1, 2, (tr 0 None None None), (Some 100), (Some 200),
    [ tr 1 None (Some 1) (Some 3); tr 2 None (Some 2) (Some 4); tr 3 None (Some 3) (Some 2) ], (Some 3).
  split; [vm_compute; reflexivity|]. split; [vm_compute; reflexivity|]. split; [apply x_on|]. split; [exact x_ars|]. split; [reflexivity|].
  split; [exact E1|]. rewrite E2. vm_compute in E1. injection E1 as <-. vm_compute in E2. injection E2 as <- <-.
  split; [reflexivity|]. split; [reflexivity|]. split; [reflexivity|]. split; [right; right; left; reflexivity|]. split; [reflexivity|].
  split; [reflexivity|]. split; [reflexivity|]. split; [vm_compute; intros H; repeat (destruct H as [H | H]; [discriminate|]); exact H|].
  intros l Hl. assert (l = [7; 4]) as ->; [| intros H; repeat (destruct H as [H | H]; [discriminate|]); exact H].
  eapply chain_fun; [exact Hl | is_chain].
Qed.

(** * C49 Completion transitions fire without an event *)
(** After every arrival recorded in the log: if the state has no completion
    transition and is not the final state of a region, the dispatch ends;
    otherwise the completion event is dispatched: the innermost enabled
    completion transition fires next, or there is none and the dispatch ends. *)
Theorem C49_completion :
  forall c M rank home grd, wf_machine c M rank home = true ->
  forall fuel istate iact d pe ars d' e y s z,
  wf_initial c M home istate = true -> arrays_ok c ars -> machine_ok c M home d -> ev_sig pe <> (sm_any c - 2)%N ->
  dispatch c M grd fuel istate iact d pe ars = Ok (d', e) -> d_log d' = d_log d ++ y ++ XState s :: z ->
  exists da, d_log da = d_log d ++ y ++ [XState s] /\ d_st da = Some s /\ machine_ok c M home da /\
  (completes c M s = false -> d' = da /\ e = EVT_PROC) /\
  (completes c M s = true -> forall l, chain M (d_dyp da) (Some s) l ->
     (forall src t d0, selected M grd (mkEv (sm_any c - 1) 0) da l src t d0 -> exists x, d_log d' = d_log d0 ++ XTrn src (t_tgt t) :: x) /\
     (forall dn, nothing M grd (mkEv (sm_any c - 1) 0) da l dn -> d' = dn /\ e = EVT_NFOUND)).
Proof. exact (fun c M rank home grd W => do_completion c M rank home W grd). Qed.
(** In region 2, from 4 to the final state 5: its completion transition leads to
    state 1. *)
Example C49_case :
  let d := after (on [ev 5 0]) in let pe := ev 8 0 in
  completes xc xm 5 = true /\
  match xdisp d pe with
  | Ok (d', e) => d_log d' = d_log d ++ [XTrn 4 (Some 5); XExit 4 (Some 204); XEff 14 pe; XEntry 5 None] ++ XState 5 ::
      [XTrn 2 (Some 1); XExit 5 None; XExit 2 (Some 202); XEff 8 (ev 254 0); XEntry 1 (Some 101); XState 1; XGrd 3 (ev 254 0) false]
  | Fault _ => False
  end.
Proof. vm_compute. auto. Qed.

(** * C50 Limits are enforced without memory errors *)
(** Whatever the machine does in any sequence of operations, nothing outside the
    work arrays is written or read, no null or dangling pointer is followed and no
    vertex is taken for one of another kind; the only assertion that can fail is
    the one for too many transition segments. *)
Theorem C50_no_memory_errors :
  forall c M rank home grd, wf_machine c M rank home = true ->
  forall fuel istate iact ops, wf_initial c M home istate = true -> Forall (smop_ok c) ops ->
  safe c (sm_run c M grd fuel istate iact blank ops).
Proof. intros c M rank home grd W fuel istate iact ops Hi Ho. apply (run_ready c M rank home W grd); [exact Hi | exact Ho | apply (blank_ready c M home)]. Qed.
Theorem C50_no_memory_errors_event :
  forall c M rank home grd, wf_machine c M rank home = true ->
  forall fuel istate iact d pe ars, wf_initial c M home istate = true -> arrays_ok c ars -> machine_ok c M home d ->
  safe c (dispatch c M grd fuel istate iact d pe ars).
Proof.
  intros c M rank home grd W fuel istate iact d pe ars Hi Ha Hm.
  apply (dispatch_safe c M rank home W grd fuel istate iact d pe ars Hi Ha (machine_ready c M home d Hm)). destruct Hm as (_ & s & E & _). congruence.
Qed.
(** A path with more segments than the maximum is given up with RKH_EX_TSEG (an
    assertion, if enabled) where the next action would not fit; the active state
    remains. *)
Theorem C50_segments :
  forall c M rank home grd, wf_machine c M rank home = true ->
  forall fuel istate iact d pe ars d' e m p d1,
  wf_initial c M home istate = true -> arrays_ok c ars -> machine_ok c M home d -> ev_sig pe <> (sm_any c - 2)%N ->
  dispatch c M grd fuel istate iact d pe ars = Ok (d', e) ->
  visits c M grd pe d m p -> overfull c M grd pe (p_d p) (p_v p) (p_pend p) d1 ->
  sm_asrt c = false /\ d' = d1 /\ e = EX_TSEG /\ d_st d' = d_st d.
Proof. exact (fun c M rank home grd W => do_overfull c M rank home W grd). Qed.
Definition yc : smcfg := mkSm false 4 1 255.
Example C50_segments_case :
  let d := ok_or blank (sm_run yc xm xgrd 20 0 None blank [OInit (fun _ => ([999], repeat None 4))]) in
  visits yc xm xgrd (ev 3 4) d false (mkP (say d [XTrn 0 (Some 7)]) 7 [3] 0) /\
  overfull yc xm xgrd (ev 3 4) (say d [XTrn 0 (Some 7)]) 7 [3] (say (say (say d [XTrn 0 (Some 7)]) [XGrd 1 (ev 3 4) false]) [XGrd 2 (ev 3 4) true]) /\
  match dispatch yc xm xgrd 20 0 None d (ev 3 4) (fun _ => ([999], repeat None 4)) with Ok (d', e) => e = EX_TSEG /\ d_st d' = Some 0 | Fault _ => False end.
Proof.
  split; [| split; [| vm_compute; auto]].
  - eapply (visit_path yc xm xgrd _ _ 0 [0] 0 (tr 3 None (Some 3) (Some 7))); [reflexivity | is_chain | | reflexivity | cbv; lia | constructor].
    eexists [], [], _. split; [reflexivity|]. split; [constructor|].
    eexists [], [], _. split; [reflexivity|]. split; [constructor | reflexivity].
  - eapply (over_cond yc xm xgrd _ _ _ _ _ (tr 0 (Some 2) (Some 23) (Some 13))); [reflexivity | | cbv; lia].
    exists [tr 0 (Some 1) (Some 22) (Some 4)], [], (say (say (ok_or blank (sm_run yc xm xgrd 20 0 None blank [OInit (fun _ => ([999], repeat None 4))])) [XTrn 0 (Some 7)]) [XGrd 1 (ev 3 4) false]).
    split; [reflexivity|]. split; [econstructor; [reflexivity | reflexivity | constructor] | split; reflexivity].
Qed.
(** In a machine nested deeper than the maximum a transition to a state that is
    too deep is refused with RKH_EX_HLEVEL (an assertion, if enabled) before any
    exit action. *)
Theorem C50_too_deep :
  forall c M rank grd, tidy M rank ->
  forall fuel istate iact d pe ars d' e cs d1 ts l b lt,
  is_rsm M istate = false -> arrays_ok c ars -> tidy_ram M d -> d_st d = Some cs -> is_leaf M cs = true -> ev_sig pe <> (sm_any c - 2)%N ->
  dispatch c M grd fuel istate iact d pe ars = Ok (d', e) ->
  visits c M grd pe d false (mkP d1 ts l b) -> is_target M ts = true -> cs <> ts ->
  chain M (d_dyp d1) (Some ts) lt -> sm_depth c < length lt -> tidy_ram M d1 ->
  sm_asrt c = false /\ d' = d1 /\ e = EX_HLEVEL /\ d_st d' = d_st d /\
  exists x, d_log d' = d_log d ++ x /\ exited x = [] /\ entered x = [].
Proof. exact (fun c M rank grd T => do_deep c M rank T grd). Qed.
Definition zc : smcfg := mkSm false 1 4 255.
Definition zars : arrays := fun _ => (repeat 999 4, [None]).
Lemma x_tidy : tidy xm xrank.
Proof. apply (wf_tidy xc xm xrank xhome x_wf). Qed.
Example C50_too_deep_case :
  let d := ok_or blank (sm_run zc xm xgrd 20 0 None blank [OInit zars]) in
  tidy xm xrank /\ tidy_ram xm d /\ d_st d = Some 0 /\
  visits zc xm xgrd (ev 10 0) d false (mkP (say d [XTrn 0 (Some 11)]) 11 [10] 0) /\ chain xm (d_dyp d) (Some 11) [11; 10; 9] /\
  match dispatch zc xm xgrd 20 0 None d (ev 10 0) zars with Ok (d', e) => e = EX_HLEVEL /\ d_st d' = Some 0 | Fault _ => False end.
Proof.
  split; [exact x_tidy|]. split; [constructor; intros r m; vm_compute; discriminate|]. split; [vm_compute; reflexivity|].
  split; [| split; [is_chain | vm_compute; auto]].
  eapply (visit_path zc xm xgrd _ _ 0 [0] 0 (tr 10 None (Some 10) (Some 11))); [reflexivity | is_chain | | reflexivity | cbv; lia | constructor].
  eexists [], [], _. split; [reflexivity|]. split; [constructor|].
  eexists [], [], _. split; [reflexivity|]. split; [constructor | reflexivity].
Qed.
(** The claim that the maximum is always checked is false: the initial transition
    (and a default transition) to a state that is too deep writes past the end of
    the entry list. *)
Theorem C50_depth_checked_refuted :
  exists c M rank grd fuel istate ars, tidy M rank /\ arrays_ok c ars /\
  sm_init c M grd fuel istate None blank ars = Fault (FUB UB_bounds).
Proof.
  exists zc, xm, xrank, xgrd, 20, 11, zars. split; [exact x_tidy|]. split; [intros k; split; reflexivity | vm_compute; reflexivity].
Qed.

(** * C51 A failed dispatch leaves the active state unchanged *)
(** The active state is the one the dispatch arrived at last; without an arrival
    it is the one before.  This holds for every return code. *)
Theorem C51_state :
  forall c M rank home grd, wf_machine c M rank home = true ->
  forall fuel istate iact d pe ars d' e,
  wf_initial c M home istate = true -> arrays_ok c ars -> machine_ok c M home d -> ev_sig pe <> (sm_any c - 2)%N ->
  dispatch c M grd fuel istate iact d pe ars = Ok (d', e) ->
  exists x, d_log d' = d_log d ++ x /\ d_st d' = match last_state x with Some s => Some s | None => d_st d end.
Proof. exact (fun c M rank home grd W => do_state c M rank home W grd). Qed.
Example C51_case :
  let d := after (on []) in
  match xdisp d (ev 3 0) with Ok (d', e) => e = CND_NFOUND /\ d_st d' = d_st d | Fault _ => False end.
Proof. vm_compute. auto. Qed.
(** So it is not true that an error code means an unchanged state: here the event
    leads to state 1, whose completion transition is not enabled. *)
Theorem C51_unchanged_refuted :
  exists c M rank home grd fuel istate ars d pe d' e,
  wf_machine c M rank home = true /\ wf_initial c M home istate = true /\ arrays_ok c ars /\ machine_ok c M home d /\
  ev_sig pe <> (sm_any c - 2)%N /\ dispatch c M grd fuel istate None d pe ars = Ok (d', e) /\
  e <> EVT_PROC /\ d_st d' <> d_st d.
Proof.
  destruct (xdisp (after (on [])) (ev 12 0)) as [[d' e]|] eqn:E; [| vm_compute in E; discriminate].
  exists xc, xm, xrank, xhome, xgrd, 20, 0, xars, (after (on [])), (ev 12 0), d', e.
  split; [exact x_wf|]. split; [exact x_init|]. split; [exact x_ars|]. split; [ok_run (@nil evt) 0|]. split; [discriminate|].
  split; [exact E|]. vm_compute in E. injection E as <- <-. split; discriminate.
Qed.

Print Assumptions C42_innermost_first.
Print Assumptions C43_order.
Print Assumptions C43_default_order.
Print Assumptions C43_configuration.
Print Assumptions C43_life.
Print Assumptions C43_shared_submachine_refuted.
Print Assumptions C43_semantics.
Print Assumptions C44_leaf.
Print Assumptions C44_active.
Print Assumptions C45_internal.
Print Assumptions C46_first_branch.
Print Assumptions C47_remembers.
Print Assumptions C47_remembers_since.
Print Assumptions C47_returns.
Print Assumptions C47_default.
Print Assumptions C48_remembers.
Print Assumptions C48_remembers_since.
Print Assumptions C48_leaf.
Print Assumptions C48_shared_submachine_refuted.
Print Assumptions C49_completion.
Print Assumptions C50_no_memory_errors.
Print Assumptions C50_no_memory_errors_event.
Print Assumptions C50_segments.
Print Assumptions C50_too_deep.
Print Assumptions C50_depth_checked_refuted.
Print Assumptions C51_state.
Print Assumptions C51_unchanged_refuted.
