(** Theorems about state machines whose active objects are terminated and activated
    again. *)
From Verif Require Import Base L_Base M_RdyGrp M_Queue M_MemPool M_Kernel M_Sm S_Sm S_SmWf S_SmRun S_Kernel M_App S_App S_AppTerm
  S_SmTerm L_KProps L_App L_AppTerm L_SmKeep L_SmSafe L_SmArr L_SmLife P_SmExample P_SmTerm P_KExample P_App P_KTerm.
Local Open Scope N_scope.

(** * C85 The next life of an active object *)
(** The kernel together with the machines of all active objects, in every
    interleaving, with terminations and further activations at any time: each
    machine is where it gets alone, when it is started as often as its object was
    activated and gets the signals its object handled, in that order. *)
Theorem C85_restarts :
  forall c mem0 statics prios dqs pools rs obj s chs x, sys_ok c mem0 statics prios dqs pools rs ->
  start c mem0 prios dqs pools = Ok s -> crun c statics (conf0 s) chs = Ok x ->
  exists w ms, orun c statics (conf0 s) chs = Ok (x, w) /\ arun c statics obj (conf0 s) machines0 chs = Ok (x, ms) /\
    forall o, snd (ms o) = lives (obj o) 0 (Ok blank) (story o w).
Proof.
  intros c mem0 statics prios dqs pools rs obj s chs x SO Es E. destruct (orun_crun c statics chs _ _ E) as [w Ew].
  destruct (told_run c mem0 statics prios dqs pools rs obj SO chs (conf0 s) [] machines0 x w) as (ms & Em & Hm).
  - now apply start_reach.
  - eapply told_start; exact Es.
  - exact Ew.
  - exists w, ms. split; [exact Ew|]. split; [exact Em|]. intros o. now rewrite (proj1 (Hm o)).
Qed.
(** Object 1 of C83 once more: activated, terminated, activated, one event. *)
Example C85_restarts_ex :
  match orun K_cfg K_statics (conf0 K_s0) K_again, arun K_cfg K_statics K_obj (conf0 K_s0) machines0 K_again with
  | Ok (_, w), Ok (_, ms) =>
    story 1 w = [None; None; Some (Some 7)] /\ story 0 w = [None] /\ is_ok (snd (ms 1%nat)) = true /\
    match snd (ms 1%nat) with Ok d => d_st d = Some 0%nat /\ entered (d_log d) = [0; 0]%nat /\ exited (d_log d) = [] | Fault _ => False end
  | _, _ => False
  end.
Proof. vm_compute. repeat split. Qed.

(** So C56_application holds without its condition that the object is never
    terminated: a well-formed machine whose first initial transition succeeds goes
    through the calls [life_calls ob 0 (story o w)], and if its paths and completion
    transitions end it rests in a leaf state, or stopped at the assertion that a
    transition has too many segments. *)
Theorem C85_application :
  forall c mem0 statics prios dqs pools rs obj s chs x w ms o rank home order mu d0 e0,
  sys_ok c mem0 statics prios dqs pools rs -> start c mem0 prios dqs pools = Ok s ->
  orun c statics (conf0 s) chs = Ok (x, w) -> arun c statics obj (conf0 s) machines0 chs = Ok (x, ms) -> is_started o w = true ->
  let ob := obj o in let sc := ob_c ob in let M := ob_M ob in
  wf_machine sc M rank home = true -> wf_initial sc M home (ob_ist ob) = true -> (forall k, arrays_ok sc (ob_ars ob k)) ->
  sm_init sc M (ob_grd ob) (ob_fuel ob) (ob_ist ob) (ob_iact ob) blank (ob_ars ob 0) = Ok (d0, e0) -> d_st d0 <> None ->
  ~ In (Some (sm_any sc - 2)) (handled o w) ->
  snd (ms o) = sm_run sc M (ob_grd ob) (ob_fuel ob) (ob_ist ob) (ob_iact ob) blank (life_calls ob 0 (story o w)) /\
  (paths_end M order = true -> defaults_enter M = true -> completions_end sc M mu = true ->
   (turns sc M + S (highest M mu) <= ob_fuel ob)%nat ->
   (exists d st, snd (ms o) = Ok d /\ d_st d = Some st /\ is_leaf M st = true) \/
   (exists line, snd (ms o) = Fault (FAssert line) /\ sm_asrt sc = true /\ In line seg_lines)).
Proof.
  intros c mem0 statics prios dqs pools rs obj s chs x w ms o rank home order mu d0 e0 SO Es Ew Em Hst ob sc M W Hi Ha E0 Hd0 Hn.
  destruct (told_run c mem0 statics prios dqs pools rs obj SO chs (conf0 s) [] machines0 x w) as (ms' & Em' & Hm).
  { now apply start_reach. } { eapply told_start; exact Es. } { exact Ew. }
  rewrite Em in Em'. injection Em' as <-. destruct (Hm o) as (Ho & _ & Hl & Hg). rewrite Ho. cbn [snd app] in *.
  destruct Hl as [Hl|[l Hl]]; [now rewrite (story_started o w Hl) in Hst|]. rewrite Hl in Hg |- *.
  destruct (lives_calls ob rank home W Hi Ha l d0 e0 E0 Hd0) as [Ec Hk].
  { intros Hin. apply Hn, story_handled. rewrite Hl. now right. }
  { intros g Hin. apply Hg. now right. }
  fold ob. fold sc M in Ec. split; [exact Ec|]. intros P D C Hf.
  destruct (C53_returns sc M rank home (ob_grd ob) order mu W P D C (ob_fuel ob) (ob_ist ob) (ob_iact ob) _ Hi (life_ok ob Ha (None :: l) 0) Hf)
    as [(d & E)|(line & E & H1 & H2)]; fold sc M in E; rewrite <- Ec in E.
  - left. destruct (Hk d E) as (_ & st & E1 & E2 & _). exists d, st. auto.
  - right. exists line. auto.
Qed.
(** [C56_machine_ex] has the hypotheses about the machine; with the story above: *)
Example C85_application_ex :
  match orun K_cfg K_statics (conf0 K_s0) K_again with
  | Ok (_, w) =>
    is_started 1 w = true /\ handled 1 w = [Some 7] /\ In None (tl (story 1 w)) /\
    match sm_run xc xm xgrd 44 0 None blank (life_calls (K_obj 1) 0 (story 1 w)) with Ok d => d_st d = Some 0%nat /\ is_leaf xm 0 = true | Fault _ => False end
  | Fault _ => False
  end.
Proof. vm_compute. auto 8. Qed.

(** What a machine does from its start on depends on what was before by its
    histories and the record of entered submachines alone: not by the state it was
    in.  (Guards of the application may look at other data; then nothing of the
    kind holds.) *)
Theorem C85_next_life :
  forall c M grd fuel istate iact d1 d2 ars ops d, blind grd -> same_ram d1 d2 ->
  sm_init c M grd fuel istate iact d1 ars = Ok (d, EVT_PROC) ->
  same_life d1 d2 (sm_run c M grd fuel istate iact d1 (OInit ars :: ops)) (sm_run c M grd fuel istate iact d2 (OInit ars :: ops)).
Proof.
  intros c M grd fuel istate iact d1 d2 ars ops d Hb [R1 R2] Ei. cbn [sm_run sm_do].
  assert (A0 : al (d_log d1) (d_log d2) false d1 d2).
  { split; [discriminate|]. split; [exact R1|]. split; [exact R2|]. exists []. now rewrite !app_nil_r. }
  pose proof (al_init c M grd Hb _ _ fuel istate iact d1 d2 ars A0) as K. rewrite Ei in *.
  destruct (sm_init c M grd fuel istate iact d2 ars) as [[e r]|]; cbn [rrel] in K; [|contradiction].
  destruct K as [[K|[_ K]] _]; cbn [fst snd] in K; [|now destruct K]. cbn [bind]. clear Ei A0.
  assert (G : rrel (al (d_log d1) (d_log d2) true) (sm_run c M grd fuel istate iact d ops) (sm_run c M grd fuel istate iact e ops)).
  { revert d e K. induction ops as [|op ops IH]; intros d e K; cbn [sm_run]; [exact K|].
    eapply bind_rel with (R := al (d_log d1) (d_log d2) true); [|intros; now apply IH]. destruct op as [a|pe a|h]; cbn [sm_do].
    - unfold sm_init. eapply bind_rel; [apply (al_dispatch c M grd Hb _ _ fuel istate iact d e (evCreation c) a K)|]. intros [x rx] [y ry] [H _]. exact H.
    - rewrite (proj1 K eq_refl). destruct (d_st e); [|exact K].
      eapply bind_rel; [apply (al_dispatch c M grd Hb _ _ fuel istate iact d e pe a K)|]. intros [x rx] [y ry] [H _]. exact H.
    - cbn. now apply al_hist. }
  destruct (sm_run c M grd fuel istate iact d ops) as [a|f], (sm_run c M grd fuel istate iact e ops) as [b|g]; cbn in G |- *; try assumption.
  destruct G as (G1 & G2 & G3 & G4). split; [now apply G1|]. split; [split; assumption|exact G4].
Qed.
(** A machine in state 4 of composite state 2, its two histories cleared, against a
    new one: started, they do the same. *)
Definition life_d : dyn := after (on [ev 1 2; ev 8 2] ++ [OClear 6; OClear 12]).
Example C85_next_life_ex :
  blind xgrd /\ d_st life_d = Some 4%nat /\ same_ram life_d blank /\
  match sm_init xc xm xgrd 20 0 None life_d xars with Ok (_, EVT_PROC) => True | _ => False end /\
  same_life life_d blank (sm_run xc xm xgrd 20 0 None life_d (on [ev 5 2])) (sm_run xc xm xgrd 20 0 None blank (on [ev 5 2])) /\
  match sm_run xc xm xgrd 20 0 None life_d (on [ev 5 2]) with Ok d => d_st d = Some 4%nat | Fault _ => False end.
Proof.
  assert (R : same_ram life_d blank).
  { split; intros h; [|vm_compute; reflexivity]. unfold life_d. do 13 (destruct h as [|h]; [vm_compute; reflexivity|]). vm_compute. reflexivity. }
  assert (B : blind xgrd) by (intros g e l1 l2; reflexivity).
  split; [exact B|]. split; [vm_compute; reflexivity|]. split; [exact R|]. split; [vm_compute; exact I|]. split; [|vm_compute; reflexivity].
  destruct (sm_init xc xm xgrd 20 0 None life_d xars) as [[d []]|] eqn:E; try (vm_compute in E; discriminate E).
  exact (C85_next_life xc xm xgrd 20 0 None life_d blank xars _ d B R E).
Qed.

(** Without clearing the histories the next life differs from the first: the
    history of state 2 still has the child of the previous life, where a new machine
    takes the default transition; and the states it was in are not exited by the
    start. *)
Theorem C85_as_new_refuted :
  let old := on [ev 1 2] in
  d_st (after old) = Some 3%nat /\ d_st (after (old ++ [OInit xars])) = Some 0%nat /\
  exited (d_log (after (old ++ [OInit xars]))) = [0]%nat /\ entered (d_log (after (old ++ [OInit xars]))) = [0; 2; 3; 0]%nat /\
  let past := on [ev 1 2; ev 7 2] in
  d_st (after (past ++ on [ev 5 2])) = Some 3%nat /\ d_st (after (on [ev 5 2])) = Some 4%nat.
Proof. vm_compute. repeat split. Qed.

Print Assumptions C85_restarts.
Print Assumptions C85_application.
Print Assumptions C85_next_life.
Print Assumptions C85_as_new_refuted.
