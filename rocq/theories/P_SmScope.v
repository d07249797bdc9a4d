(** C70: which states a transition leaves and enters, compared with UML; and
    histories and default transitions that do other than UML says. *)
From Verif Require Import Base L_Base M_Sm S_Sm S_SmWf S_SmRun L_Sm L_SmWf L_SmSafe L_SmMore S_SmScope L_SmScope P_SmExample.
Local Open Scope nat_scope.

(** * C70 What a transition leaves and enters *)
(** Source and target are apart, or both are the active state: the transition
    leaves and enters what an external transition does. *)
Theorem C70_external :
  forall c M rank home grd, wf_machine c M rank home = true ->
  forall fuel istate iact d pe ars d' e cs src t d1 ts acts lc lt pre anc,
  wf_initial c M home istate = true -> arrays_ok c ars -> machine_ok c M home d -> ev_sig pe <> (sm_any c - 2)%N ->
  dispatch c M grd fuel istate iact d pe ars = Ok (d', e) -> taken c M grd d pe cs src t d1 ts acts lc lt ->
  lc = pre ++ src :: anc -> (~ In src lt /\ ~ In ts anc) \/ (src = cs /\ ts = cs) ->
  moved M d1 d' pe (ext_exits lc anc lt) acts (ext_entries anc lt).
Proof.
  intros c M rank home grd W fuel istate iact d pe ars d' e cs src t d1 ts acts lc lt pre anc Hi Ha Hm Hc H T.
  exact (scope_external c M rank home W grd fuel istate iact d d' d1 pe ars e cs src ts t acts lc lt Hi Ha Hm Hc H T pre anc).
Qed.
Print Assumptions C70_external.

(** The target is in the source, or the source itself, the source is not the
    active state, and no state in the source contains the active state and the
    target: the transition leaves and enters what a local transition does. *)
Theorem C70_local :
  forall c M rank home grd, wf_machine c M rank home = true ->
  forall fuel istate iact d pe ars d' e cs src t d1 ts acts lc lt,
  wf_initial c M home istate = true -> arrays_ok c ars -> machine_ok c M home d -> ev_sig pe <> (sm_any c - 2)%N ->
  dispatch c M grd fuel istate iact d pe ars = Ok (d', e) -> taken c M grd d pe cs src t d1 ts acts lc lt ->
  In src lc -> In src lt -> src <> cs -> (forall s, In s (loc_exits src lc) -> ~ In s lt) ->
  moved M d1 d' pe (loc_exits src lc) acts (loc_entries src lt).
Proof.
  intros c M rank home grd W fuel istate iact d pe ars d' e cs src t d1 ts acts lc lt Hi Ha Hm Hc H T.
  exact (scope_common c M rank home W grd fuel istate iact d d' d1 pe ars e cs src ts t acts lc lt Hi Ha Hm Hc H T src).
Qed.
Print Assumptions C70_local.

(** In general: what is in the innermost state [m] that contains the active
    state and the target is left and entered, wherever the source is. *)
Theorem C70_innermost :
  forall c M rank home grd, wf_machine c M rank home = true ->
  forall fuel istate iact d pe ars d' e cs src t d1 ts acts lc lt m,
  wf_initial c M home istate = true -> arrays_ok c ars -> machine_ok c M home d -> ev_sig pe <> (sm_any c - 2)%N ->
  dispatch c M grd fuel istate iact d pe ars = Ok (d', e) -> taken c M grd d pe cs src t d1 ts acts lc lt ->
  In m lc -> In m lt -> m <> cs -> (forall s, In s (before m lc) -> ~ In s lt) ->
  moved M d1 d' pe (before m lc) acts (rev (before m lt)).
Proof.
  intros c M rank home grd W fuel istate iact d pe ars d' e cs src t d1 ts acts lc lt m Hi Ha Hm Hc H T.
  exact (scope_common c M rank home W grd fuel istate iact d d' d1 pe ars e cs src ts t acts lc lt Hi Ha Hm Hc H T m).
Qed.
Print Assumptions C70_innermost.

(** The target is in an outer source, or the source is in the target: never an
    external transition.  The outer one of the two is neither left nor entered. *)
Theorem C70_not_external :
  forall c M rank home grd, wf_machine c M rank home = true ->
  forall fuel istate iact d pe ars d' e cs src t d1 ts acts lc lt pre anc s,
  wf_initial c M home istate = true -> arrays_ok c ars -> machine_ok c M home d -> ev_sig pe <> (sm_any c - 2)%N ->
  dispatch c M grd fuel istate iact d pe ars = Ok (d', e) -> taken c M grd d pe cs src t d1 ts acts lc lt ->
  lc = pre ++ src :: anc -> (s = src /\ In src lt /\ src <> cs) \/ (s = ts /\ In ts anc) ->
  In s (ext_exits lc anc lt) /\ In s (ext_entries anc lt) /\
  exists out inn, moved M d1 d' pe out acts inn /\ (forall x, In x out -> In x lc) /\ (forall x, In x inn -> In x lt) /\ ~ In s out /\ ~ In s inn.
Proof.
  intros c M rank home grd W fuel istate iact d pe ars d' e cs src t d1 ts acts lc lt pre anc s Hi Ha Hm Hc H T El Hs.
  destruct (scope c M rank home W grd fuel istate iact d d' d1 pe ars e cs src ts t acts lc lt Hi Ha Hm Hc H T)
    as (out & inn & both & E1 & E2 & Hd & Hmv & N1 & N2 & H1 & H2).
  assert (In s lc /\ In s lt /\ s <> cs /\ around anc lt s = false) as (S1 & S2 & S3 & S4).
  { destruct Hs as [(-> & K1 & K2) | (-> & K)].
    - split; [rewrite El; apply in_elt|]. split; [exact K1|]. split; [exact K2|].
      unfold around. destruct (mem src anc) eqn:Em; [| reflexivity]. apply mem_In in Em. rewrite El in N1.
      apply NoDup_remove_2 in N1. exfalso. apply N1. apply in_or_app. now right.
    - split; [rewrite El; apply in_or_app; right; now right|].
      assert (In ts lt) as Kt by (destruct lt; [discriminate | injection H2 as ->; now left]).
      split; [exact Kt|]. split.
      + intros ->. rewrite El in N1, H1. destruct pre as [| y pre]; cbn in H1, N1; injection H1 as ->; apply NoDup_cons_iff in N1 as [N1 _]; apply N1;
          [exact K | apply in_or_app; right; now right].
      + unfold around. destruct (mem ts (tl lt)) eqn:Em; [| now rewrite andb_false_r]. apply mem_In in Em.
        destruct lt as [| y l]; [discriminate|]. injection H2 as ->. apply NoDup_cons_iff in N2 as [N2 _]. now elim N2. }
  split; [apply filter_In; split; [exact S1 | now rewrite S4]|].
  split; [unfold ext_entries; rewrite <- in_rev; apply filter_In; split; [exact S2 | now rewrite S4]|].
  exact (scope_stays c M rank home W grd fuel istate iact d d' d1 pe ars e cs src ts t acts lc lt Hi Ha Hm Hc H T s S1 S2 S3).
Qed.
Print Assumptions C70_not_external.

(** A state [m] in the source contains the active state and the target: not a
    local transition either.  [m] is neither left nor entered. *)
Theorem C70_not_local :
  forall c M rank home grd, wf_machine c M rank home = true ->
  forall fuel istate iact d pe ars d' e cs src t d1 ts acts lc lt m,
  wf_initial c M home istate = true -> arrays_ok c ars -> machine_ok c M home d -> ev_sig pe <> (sm_any c - 2)%N ->
  dispatch c M grd fuel istate iact d pe ars = Ok (d', e) -> taken c M grd d pe cs src t d1 ts acts lc lt ->
  In m (loc_exits src lc) -> In m (loc_entries src lt) -> m <> cs ->
  exists out inn, moved M d1 d' pe out acts inn /\ (forall x, In x out -> In x lc) /\ (forall x, In x inn -> In x lt) /\ ~ In m out /\ ~ In m inn.
Proof.
  intros c M rank home grd W fuel istate iact d pe ars d' e cs src t d1 ts acts lc lt m Hi Ha Hm Hc H T M1 M2 M3.
  assert (forall l x, In x (before src l) -> In x l) as Hb.
  { induction l as [| y l IH]; cbn; [auto|]. intros x. destruct (y =? src); [intros [] |]. intros [K | K]; auto. }
  apply (scope_stays c M rank home W grd fuel istate iact d d' d1 pe ars e cs src ts t acts lc lt Hi Ha Hm Hc H T m); [| | exact M3].
  - exact (Hb lc m M1).
  - apply Hb. apply in_rev. exact M2.
Qed.
Print Assumptions C70_not_local.

(** State 3 in 2 in 1.  Event 8: from 3 to 5, in 1.  7: from 3 to 3.  2: from 1
    to 1.  4: from 1 to 5.  3: from 1 to 4, in 2.  6: from 3 to 2. *)
Definition zm : machine :=
  [ bs 0 None [ tr 1 None (Some 1) (Some 1) ];
    VComp (Some 101) (Some 201) None [ tr 2 None (Some 2) (Some 1); tr 3 None (Some 3) (Some 4); tr 4 None (Some 4) (Some 5) ] (Some 2) None None;
    VComp (Some 102) (Some 202) (Some 1) [] (Some 3) None None;
    bs 3 (Some 2) [ tr 6 None (Some 6) (Some 2); tr 7 None (Some 7) (Some 3); tr 8 None (Some 8) (Some 5) ];
    bs 4 (Some 2) []; bs 5 (Some 1) [] ].
Definition zrank (v : nat) : nat := match v with 2 | 5 => 1 | 3 | 4 => 2 | _ => 0 end.
Definition zhome (v : nat) : option nat := None.
Definition zrun (ops : list smop) : res dyn := sm_run xc zm xgrd 20 0 None blank ops.
Definition zd : dyn := ok_or blank (zrun (on [ev 1 0])).
Lemma z_wf : wf_machine xc zm zrank zhome = true.
Proof. vm_compute. reflexivity. Qed.
Lemma z_ok : machine_ok xc zm zhome zd.
Proof.
  assert (is_ok (zrun (on [ev 1 0])) = true) as H by (vm_compute; reflexivity). assert (d_st zd = Some 3) as Es by (vm_compute; reflexivity).
  unfold zd in *. destruct (zrun (on [ev 1 0])) as [d|] eqn:E; [| discriminate]. cbn [ok_or] in *.
  exact (run_machine xc zm zrank zhome z_wf xgrd 20 0 None (on [ev 1 0]) d 3 ltac:(vm_compute; reflexivity) (x_on [ev 1 0]) E Es).
Qed.
Ltac is_chain := repeat (econstructor; [reflexivity|]); constructor.
(** What the event does in state 3. *)
Definition zx (sig : N) : res (list xev) :=
  do (d', _) <- dispatch xc zm xgrd 20 0 None zd (ev sig 0) xars; Ok (skipn (length (d_log zd)) (d_log d')).
Ltac z_taken inner outer pre post :=
  eexists [3; 2; 1], zd, _, _; split; [vm_compute; reflexivity|]; split; [is_chain|];
  split; [exists inner, outer, zd; split; [reflexivity|]; split; [constructor|];
          exists pre, post, zd; split; [reflexivity|]; split; [constructor | reflexivity]|];
  split; [reflexivity|]; split; [cbv; lia|]; split; [apply segs_here|]; split; [reflexivity|]; split; [is_chain | is_chain].
Example C70_external_case :
  machine_ok xc zm zhome zd /\
  taken xc zm xgrd zd (ev 8 0) 3 3 (tr 8 None (Some 8) (Some 5)) (say zd [XTrn 3 (Some 5)]) 5 [8] [3; 2; 1] [5; 1] /\
  taken xc zm xgrd zd (ev 7 0) 3 3 (tr 7 None (Some 7) (Some 3)) (say zd [XTrn 3 (Some 3)]) 3 [7] [3; 2; 1] [3; 2; 1] /\
  ext_exits [3; 2; 1] [2; 1] [5; 1] = [3; 2] /\ ext_entries [2; 1] [5; 1] = [5] /\
  ext_exits [3; 2; 1] [2; 1] [3; 2; 1] = [3] /\ ext_entries [2; 1] [3; 2; 1] = [3] /\
  zx 8 = Ok [XTrn 3 (Some 5); XExit 3 (Some 203); XExit 2 (Some 202); XEff 8 (ev 8 0); XEntry 5 (Some 105); XState 5] /\
  zx 7 = Ok [XTrn 3 (Some 3); XExit 3 (Some 203); XEff 7 (ev 7 0); XEntry 3 (Some 103); XState 3].
Proof.
  split; [exact z_ok|]. split; [z_taken (@nil nat) [2; 1] (@nil trn) (@nil trn)|]. split; [z_taken (@nil nat) [2; 1] (@nil trn) (@nil trn)|].
  repeat split; vm_compute; reflexivity.
Qed.
Example C70_local_case :
  taken xc zm xgrd zd (ev 4 0) 3 1 (tr 4 None (Some 4) (Some 5)) (say zd [XTrn 1 (Some 5)]) 5 [4] [3; 2; 1] [5; 1] /\
  loc_exits 1 [3; 2; 1] = [3; 2] /\ loc_entries 1 [5; 1] = [5] /\
  zx 4 = Ok [XTrn 1 (Some 5); XExit 3 (Some 203); XExit 2 (Some 202); XEff 4 (ev 4 0); XEntry 5 (Some 105); XState 5].
Proof. split; [z_taken [3; 2] (@nil nat) (@nil trn) (@nil trn)|]. repeat split; vm_compute; reflexivity. Qed.
(** The composite state 1 is not left by its transition to itself, nor 2 by the
    transition of 3 to it. *)
Example C70_not_external_case :
  taken xc zm xgrd zd (ev 2 0) 3 1 (tr 2 None (Some 2) (Some 1)) (say zd [XTrn 1 (Some 1)]) 1 [2] [3; 2; 1] [1] /\
  taken xc zm xgrd zd (ev 6 0) 3 3 (tr 6 None (Some 6) (Some 2)) (say zd [XTrn 3 (Some 2)]) 2 [6] [3; 2; 1] [2; 1] /\
  ext_exits [3; 2; 1] [] [1] = [3; 2; 1] /\ ext_exits [3; 2; 1] [2; 1] [2; 1] = [3; 2] /\
  zx 2 = Ok [XTrn 1 (Some 1); XExit 3 (Some 203); XExit 2 (Some 202); XEff 2 (ev 2 0); XEntry 2 (Some 102); XEntry 3 (Some 103); XState 3] /\
  zx 6 = Ok [XTrn 3 (Some 2); XExit 3 (Some 203); XEff 6 (ev 6 0); XEntry 3 (Some 103); XState 3].
Proof.
  split; [z_taken [3; 2] (@nil nat) (@nil trn) (@nil trn)|]. split; [z_taken (@nil nat) [2; 1] (@nil trn) (@nil trn)|].
  repeat split; vm_compute; reflexivity.
Qed.
(** From 1 to 4: state 2 stays active. *)
Example C70_not_local_case :
  taken xc zm xgrd zd (ev 3 0) 3 1 (tr 3 None (Some 3) (Some 4)) (say zd [XTrn 1 (Some 4)]) 4 [3] [3; 2; 1] [4; 2; 1] /\
  loc_exits 1 [3; 2; 1] = [3; 2] /\ loc_entries 1 [4; 2; 1] = [2; 4] /\ before 2 [3; 2; 1] = [3] /\ before 2 [4; 2; 1] = [4] /\
  zx 3 = Ok [XTrn 1 (Some 4); XExit 3 (Some 203); XEff 3 (ev 3 0); XEntry 4 (Some 104); XState 4].
Proof. split; [z_taken [3; 2] (@nil nat) (@nil trn) (@nil trn)|]. repeat split; vm_compute; reflexivity. Qed.

(** * Histories *)
(** C47: a transition to the history of the region the machine is in enters the
    substate left before, not the one it leaves: the history is read before the
    exits of the transition set it. *)
Definition hm : machine :=
  [ bs 0 None [ tr 9 None None (Some 1) ];
    VComp (Some 101) (Some 201) None [] (Some 3) None (Some 2);
    VHist false (Some 1) (tr 0 None None None);
    bs 3 (Some 1) [ tr 1 None None (Some 4) ];
    bs 4 (Some 1) [ tr 2 None None (Some 2) ] ].
Definition hrank (v : nat) : nat := match v with 3 | 4 | 5 => 1 | _ => 0 end.
Theorem C47_own_history_refuted :
  exists c M rank home grd fuel istate ops d pe ars d' x q h dft s s0,
  wf_machine c M rank home = true /\ wf_initial c M home istate = true /\ Forall (smop_ok c) ops /\ arrays_ok c ars /\
  nth_error M h = Some (VHist false (Some q) dft) /\ sm_run c M grd fuel istate None blank ops = Ok d /\
  d_st d = Some s /\ parent_of M s = Some (Some q) /\ In (mkT (ev_sig pe) None None (Some h)) (table_of M s) /\
  dispatch c M grd fuel istate None d pe ars = Ok (d', EVT_PROC) /\ d_log d' = d_log d ++ x /\ exited x = [s] /\ entered x = [s0] /\
  d_st d' = Some s0 /\ s0 <> s /\ d_hist d' h = Some s.
Proof.
  destruct (sm_run xc hm xgrd 20 0 None blank (on [ev 9 0; ev 1 0])) as [d|] eqn:E1; [| vm_compute in E1; discriminate].
  destruct (dispatch xc hm xgrd 20 0 None d (ev 2 0) xars) as [[d' e]|] eqn:E2; [| vm_compute in E1; injection E1 as <-; vm_compute in E2; discriminate].
  exists xc, hm, hrank, zhome, xgrd, 20, 0, (on [ev 9 0; ev 1 0]), d, (ev 2 0), xars, d', (skipn (length (d_log d)) (d_log d')), 1, 2, (tr 0 None None None), 4, 3.
  split; [vm_compute; reflexivity|]. split; [vm_compute; reflexivity|]. split; [apply x_on|]. split; [exact x_ars|]. split; [reflexivity|].
  split; [exact E1|]. rewrite E2. vm_compute in E1. injection E1 as <-. vm_compute in E2. injection E2 as <- <-.
  repeat split; try reflexivity; [left; reflexivity | discriminate].
Qed.
Print Assumptions C47_own_history_refuted.

(** A region left from its final state: its history, shallow or deep, leads back
    into the final state instead of taking the default transition of the history,
    so that the region is complete again at once. *)
Definition fm (deep : bool) : machine :=
  [ bs 0 None [ tr 9 None None (Some 1); tr 8 None None (Some 2) ];
    VComp (Some 101) (Some 201) None [ tr 254 None (Some 8) (Some 0) ] (Some 3) None (Some 2);
    VHist deep (Some 1) (tr 0 None None (Some 4));
    bs 3 (Some 1) [ tr 1 None None (Some 5) ];
    bs 4 (Some 1) [];
    VFinal (Some 1) ].
Theorem C47_final_refuted : forall deep,
  exists c M rank home grd fuel istate ops d pe ars d' x q h dft t f s,
  wf_machine c M rank home = true /\ wf_initial c M home istate = true /\ Forall (smop_ok c) ops /\ arrays_ok c ars /\
  nth_error M h = Some (VHist deep (Some q) dft) /\ t_tgt dft = Some t /\ nth_error M f = Some (VFinal (Some q)) /\
  sm_run c M grd fuel istate None blank ops = Ok d /\ d_st d = Some s /\ In (mkT (ev_sig pe) None None (Some h)) (table_of M s) /\
  dispatch c M grd fuel istate None d pe ars = Ok (d', EVT_PROC) /\ d_log d' = d_log d ++ x /\ In f (entered x) /\ ~ In t (entered x) /\
  d_st d' = Some s.
Proof.
  intros deep.
  destruct (sm_run xc (fm deep) xgrd 20 0 None blank (on [ev 9 0; ev 1 0])) as [d|] eqn:E1; [| destruct deep; vm_compute in E1; discriminate].
  destruct (dispatch xc (fm deep) xgrd 20 0 None d (ev 8 0) xars) as [[d' e]|] eqn:E2;
    [| destruct deep; vm_compute in E1; injection E1 as <-; vm_compute in E2; discriminate].
  exists xc, (fm deep), hrank, zhome, xgrd, 20, 0, (on [ev 9 0; ev 1 0]), d, (ev 8 0), xars, d', (skipn (length (d_log d)) (d_log d')), 1, 2, (tr 0 None None (Some 4)), 4, 5, 0.
  split; [destruct deep; vm_compute; reflexivity|]. split; [destruct deep; vm_compute; reflexivity|]. split; [apply x_on|]. split; [exact x_ars|].
  split; [reflexivity|]. split; [reflexivity|]. split; [reflexivity|].
  split; [exact E1|]. rewrite E2. destruct deep; vm_compute in E1; injection E1 as <-; vm_compute in E2; injection E2 as <- <-.
  all: split; [reflexivity|]; split; [right; left; reflexivity|]; split; [reflexivity|]; split; [reflexivity|];
    split; [right; left; reflexivity|]; split; [| reflexivity]; vm_compute; intros H; repeat (destruct H as [H | H]; [discriminate|]); exact H.
Qed.
Print Assumptions C47_final_refuted.

(** * Default transitions outside the well-formed machines *)
(** C43: a default transition to the history of a nested composite state, 2,
    makes this state active without entering it. *)
Definition dm : machine :=
  [ bs 0 None [ tr 9 None None (Some 1) ];
    VComp (Some 101) (Some 201) None [] (Some 3) None None;
    VComp (Some 102) (Some 202) (Some 1) [] (Some 4) None (Some 3);
    VHist false (Some 2) (tr 0 None None None);
    bs 4 (Some 2) [] ].
Theorem C43_default_history_refuted :
  exists c M grd fuel istate ops d pe ars d' s q ln,
  single_use M = true /\ Forall (smop_ok c) ops /\ arrays_ok c ars /\ sm_run c M grd fuel istate None blank ops = Ok d /\
  dispatch c M grd fuel istate None d pe ars = Ok (d', EVT_PROC) /\ d_st d' = Some s /\ chain M (d_dyp d') (Some s) ln /\
  In q ln /\ ~ In q (entered (d_log d')) /\ replay M [] (d_log d') = None.
Proof.
  destruct (sm_run xc dm xgrd 20 0 None blank (on [])) as [d|] eqn:E1; [| vm_compute in E1; discriminate].
  destruct (dispatch xc dm xgrd 20 0 None d (ev 9 0) xars) as [[d' e]|] eqn:E2; [| vm_compute in E1; injection E1 as <-; vm_compute in E2; discriminate].
  exists xc, dm, xgrd, 20, 0, (on []), d, (ev 9 0), xars, d', 4, 2, [4; 2; 1].
  split; [vm_compute; reflexivity|]. split; [apply x_on|]. split; [exact x_ars|].
  split; [exact E1|]. rewrite E2. vm_compute in E1. injection E1 as <-. vm_compute in E2. injection E2 as <- <-.
  split; [reflexivity|]. split; [reflexivity|]. split; [is_chain|]. split; [right; left; reflexivity|]. split; [| vm_compute; reflexivity].
  vm_compute; intros H; repeat (destruct H as [H | H]; [discriminate|]); exact H.
Qed.
Print Assumptions C43_default_history_refuted.

(** C50: a default or initial transition to a submachine state takes the
    descriptor of the submachine for a state. *)
Definition sdm : machine :=
  [ bs 0 None [ tr 9 None None (Some 1) ];
    VComp (Some 101) (Some 201) None [] (Some 2) None None;
    VSubm (Some 102) (Some 202) (Some 1) [] [] 3;
    VRsm (Some 4) None;
    bs 4 (Some 3) [];
    VSubm (Some 105) (Some 205) None [] [] 6; VRsm (Some 7) None; bs 7 (Some 6) [] ].
Theorem C50_submachine_default_refuted :
  exists c M grd fuel istate ops d pe ars q m,
  Forall (smop_ok c) ops /\ arrays_ok c ars /\
  (exists en ex p tbl ia h, nth_error M q = Some (VComp en ex p tbl (Some m) ia h)) /\
  (exists en ex tbl xp r, nth_error M m = Some (VSubm en ex (Some q) tbl xp r)) /\
  sm_run c M grd fuel istate None blank ops = Ok d /\ dispatch c M grd fuel istate None d pe ars = Fault (FUB UB_type).
Proof.
  destruct (sm_run xc sdm xgrd 20 0 None blank (on [])) as [d|] eqn:E1; [| vm_compute in E1; discriminate].
  exists xc, sdm, xgrd, 20, 0, (on []), d, (ev 9 0), xars, 1, 2.
  split; [apply x_on|]. split; [exact x_ars|]. split; [do 6 eexists; reflexivity|]. split; [do 5 eexists; reflexivity|]. split; [exact E1|].
  vm_compute in E1. injection E1 as <-. vm_compute. reflexivity.
Qed.
Print Assumptions C50_submachine_default_refuted.
Theorem C50_submachine_initial_refuted :
  exists c M grd fuel ars m, arrays_ok c ars /\
  (exists en ex tbl xp r, nth_error M m = Some (VSubm en ex None tbl xp r)) /\
  sm_init c M grd fuel m None blank ars = Fault (FUB UB_type).
Proof.
  exists xc, sdm, xgrd, 20, xars, 5. split; [exact x_ars|]. split; [do 5 eexists; reflexivity|]. vm_compute. reflexivity.
Qed.
Print Assumptions C50_submachine_initial_refuted.
