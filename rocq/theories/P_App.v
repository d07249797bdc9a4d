(** Theorems about whole executions: run to completion, signals from sender to
    receiver, active objects as state machines, memory outside the pools. *)
From Verif Require Import Base L_Base M_RdyGrp M_Queue M_MemPool M_Kernel M_Sm S_Sm S_SmWf S_SmRun L_SmSafe S_SmTerm P_SmExample P_SmTerm
  S_Kernel L_KMem L_Kernel L_KRun L_KBoot L_KProps P_KExample M_App S_App L_App L_AppSm.
From Coq Require Import Permutation.
Local Open Scope N_scope.

(** * C54 Events are handled one at a time, each to completion *)
(** At most one dispatch is under way, in any state of any execution. *)
Theorem C54_one_at_a_time :
  forall c mem0 statics prios dqs pools rs x, sys_ok c mem0 statics prios dqs pools rs ->
  reachable c mem0 statics prios dqs pools x -> (length (dispatching x) <= 1)%nat.
Proof. intros c mem0 statics prios dqs pools rs x SO. exact (one_dispatch c mem0 statics prios dqs pools rs SO x). Qed.
(** A dispatch starts only when no other one is under way and no application code
    at all runs or is interrupted: no action, initial transition, idle hook or
    interrupt routine.  Then it is the one under way. *)
Theorem C54_starts_alone :
  forall c mem0 statics prios dqs pools rs x ch x' o e, sys_ok c mem0 statics prios dqs pools rs ->
  reachable c mem0 statics prios dqs pools x -> cstep c statics x ch = Ok x' ->
  In (EU (UDispatch o e)) (skipn (length (c_log x)) (c_log x')) ->
  dispatching x = [] /\ user_code x = false /\ dispatching x' = [(o, e)].
Proof.
  intros c mem0 statics prios dqs pools rs x ch x' o e SO H E Hi.
  now destruct (starts_alone c mem0 statics prios dqs pools rs SO x ch x' o e H E Hi).
Qed.
(** It stays under way, whatever the calls it makes and the interrupts do, until
    all of them returned. *)
Theorem C54_runs_on :
  forall c mem0 statics prios dqs pools rs x ch x', sys_ok c mem0 statics prios dqs pools rs ->
  reachable c mem0 statics prios dqs pools x -> cstep c statics x ch = Ok x' ->
  dispatching x <> [] -> (1 < length (c_stk x))%nat -> dispatching x' = dispatching x.
Proof. intros c mem0 statics prios dqs pools rs x ch x' SO. exact (runs_on c mem0 statics prios dqs pools rs SO x ch x'). Qed.
(** An active object runs its initial transition once, and before it is handed
    any event; once more for each time it was terminated, if activated again. *)
Theorem C54_initial_first :
  forall c mem0 statics prios dqs pools rs x o, sys_ok c mem0 statics prios dqs pools rs ->
  reachable c mem0 statics prios dqs pools x ->
  init_count o (c_log x) = (off_count o (c_log x) + if registered (c_s x) o then 1 else 0)%nat /\
  forall e pre post, c_log x = pre ++ EU (UDispatch o e) :: post -> init_count o pre = S (off_count o pre).
Proof.
  intros c mem0 statics prios dqs pools rs x o SO H. split; [exact (init_reg c mem0 statics prios dqs pools rs SO x H o)|].
  intros e pre post El. exact (init_first c mem0 statics prios dqs pools rs SO x o e pre post H El).
Qed.
(** Event 2000 is being dispatched to object 1; the step before had started it.
    An interrupt comes, posts, and is interrupted. *)
Definition K_in : list choice := K_turns ++ [ChIrq; ChCall (OPost false 0 50); ChIrq].
Example C54_ex :
  K_ran K_turns = true /\ dispatching (K_at K_turns) = [(1%nat, 2000)] /\
  K_ran K_in = true /\ dispatching (K_at K_in) = [(1%nat, 2000)] /\ length (c_stk (K_at K_in)) = 4%nat /\
  K_ran (removelast K_turns) = true /\
  skipn (length (c_log (K_at (removelast K_turns)))) (c_log (K_at K_turns)) = [EL (KGet 1 2000); EU (UDispatch 1 2000)] /\
  dispatching (K_at (removelast K_turns)) = [] /\ user_code (K_at (removelast K_turns)) = false /\
  init_count 1 (c_log (K_at K_in)) = 1%nat.
Proof. vm_compute. repeat split. Qed.
Example C54_reach : K_reach (K_at K_in) /\ cstep K_cfg K_statics (K_at (removelast K_turns)) ChGo = Ok (K_at K_turns).
Proof. split; [apply K_reachable; vm_compute; reflexivity|].
  assert (Hr : K_ran (removelast K_turns) = true) by (vm_compute; reflexivity).
  assert (Ht : K_ran K_turns = true) by (vm_compute; reflexivity). unfold K_ran, K_at in *.
  assert (El : K_turns = removelast K_turns ++ [ChGo]) by reflexivity. rewrite El in Ht |- * at 2. rewrite crun_snoc in Ht |- *.
  destruct (crun K_cfg K_statics (conf0 K_s0) (removelast K_turns)) as [y|]; [|discriminate]. cbn [bind ok_or] in *.
  destruct (cstep K_cfg K_statics y ChGo); [reflexivity|discriminate].
Qed.

(** * C55 The signal handled is the signal sent *)
(** Signals are looked up in memory at the moment of the accepted post and at the
    moment of the dispatch.  The signals sent to an active object and those it
    handled explain the signals of what is waiting: nothing is changed on the
    way, by any interleaving. *)
Theorem C55_replay :
  forall c mem0 statics prios dqs pools rs s chs x, sys_ok c mem0 statics prios dqs pools rs ->
  start c mem0 prios dqs pools = Ok s -> crun c statics (conf0 s) chs = Ok x ->
  exists w, orun c statics (conf0 s) chs = Ok (x, w) /\ forall o,
    sig_queue o w = Some (map (sig_of (c_s x)) (ao_view (c_s x) o)) /\
    Permutation (sent o w) (handled o w ++ map (sig_of (c_s x)) (ao_view (c_s x) o)) /\
    (forall g, In g (handled o w) -> g <> None).
Proof.
  intros c mem0 statics prios dqs pools rs s chs x SO Es E. destruct (orun_crun c statics chs _ _ E) as [w Ew].
  exists w. split; [exact Ew|]. intros o. pose proof (orun_ok c mem0 statics prios dqs pools rs SO s chs x w Es Ew o) as Hq.
  split; [exact Hq|]. split; [now apply sig_perm|].
  destruct (arun_ok c mem0 statics prios dqs pools rs (fun _ => mkObj xc xm xgrd 0 0 None (fun _ => xars)) SO s chs x w Es Ew) as (_ & _ & _ & Hs).
  apply Hs.
Qed.
(** Without posts at the front of the queue: in the order sent. *)
Theorem C55_in_order :
  forall c mem0 statics prios dqs pools rs s chs x w o, sys_ok c mem0 statics prios dqs pools rs ->
  start c mem0 prios dqs pools = Ok s -> orun c statics (conf0 s) chs = Ok (x, w) -> fifo_only o w ->
  sent o w = handled o w ++ map (sig_of (c_s x)) (ao_view (c_s x) o).
Proof.
  intros c mem0 statics prios dqs pools rs s chs x w o SO Es Ew Hf. apply sig_fifo; [exact Hf|].
  exact (orun_ok c mem0 statics prios dqs pools rs SO s chs x w Es Ew o).
Qed.
Definition K_obs : list obs := match orun K_cfg K_statics (conf0 K_s0) K_turns with Ok (_, w) => w | Fault _ => [] end.
Example C55_ex :
  is_ok (orun K_cfg K_statics (conf0 K_s0) K_turns) = true /\
  sent 0 K_obs = [Some 5; Some 7; Some 8] /\ handled 0 K_obs = [] /\ sig_queue 0 K_obs = Some [Some 8; Some 5; Some 7] /\
  sent 1 K_obs = [Some 5; Some 6] /\ handled 1 K_obs = [Some 5; Some 6] /\ sent 2 K_obs = [Some 8].
Proof. vm_compute. repeat split. Qed.
Example C55_fifo_ex : fifo_only 1 K_obs /\ handled 1 K_obs = sent 1 K_obs.
Proof.
  split; [|vm_compute; reflexivity]. let l := eval vm_compute in K_obs in assert (Eo : K_obs = l) by (vm_compute; reflexivity).
  unfold fifo_only. rewrite Eo. intros g H. cbn [In] in H.
  repeat (destruct H as [H|H]; [discriminate|]). exact H.
Qed.

(** * C56 An active object is where its state machine alone would be *)
(** The kernel together with the machines of all active objects, in every
    interleaving of calls, interrupts and dispatches: each machine of an object that
    was not terminated is where it gets when it is run alone, on the signals its
    object handled. *)
Theorem C56_as_alone :
  forall c mem0 statics prios dqs pools rs obj s chs x, sys_ok c mem0 statics prios dqs pools rs ->
  start c mem0 prios dqs pools = Ok s -> crun c statics (conf0 s) chs = Ok x ->
  exists w ms, orun c statics (conf0 s) chs = Ok (x, w) /\ arun c statics obj (conf0 s) machines0 chs = Ok (x, ms) /\
    forall o, ~ In (EL (KOff o)) (c_log x) -> snd (ms o) = if is_started o w then alone (obj o) (handled o w) else Ok blank.
Proof.
  intros c mem0 statics prios dqs pools rs obj s chs x SO Es E. destruct (orun_crun c statics chs _ _ E) as [w Ew].
  destruct (arun_ok c mem0 statics prios dqs pools rs obj SO s chs x w Es Ew) as (ms & Em & Hm & _).
  exists w, ms. split; [exact Ew|]. split; [exact Em|]. intros o Ho. rewrite (Hm o (off_none o _ Ho)). now destruct (is_started o w).
Qed.
(** So what is proved of executions of state machines holds in the application:
    a well-formed machine whose initial transition succeeds goes through the calls
    [calls ob (handled o w)]; if its paths and completion transitions end (C53),
    it rests in a leaf state, or stopped at the assertion that a transition has
    too many segments. *)
Theorem C56_application :
  forall c mem0 statics prios dqs pools rs obj s chs x w ms o rank home order mu d0 e0,
  sys_ok c mem0 statics prios dqs pools rs -> start c mem0 prios dqs pools = Ok s ->
  orun c statics (conf0 s) chs = Ok (x, w) -> arun c statics obj (conf0 s) machines0 chs = Ok (x, ms) -> is_started o w = true ->
  ~ In (EL (KOff o)) (c_log x) ->
  let ob := obj o in let sc := ob_c ob in let M := ob_M ob in
  wf_machine sc M rank home = true -> wf_initial sc M home (ob_ist ob) = true -> (forall k, arrays_ok sc (ob_ars ob k)) ->
  sm_init sc M (ob_grd ob) (ob_fuel ob) (ob_ist ob) (ob_iact ob) blank (ob_ars ob 0) = Ok (d0, e0) -> d_st d0 <> None ->
  ~ In (Some (sm_any sc - 2)) (handled o w) ->
  snd (ms o) = sm_run sc M (ob_grd ob) (ob_fuel ob) (ob_ist ob) (ob_iact ob) blank (calls ob (handled o w)) /\
  (paths_end M order = true -> defaults_enter M = true -> completions_end sc M mu = true ->
   (turns sc M + S (highest M mu) <= ob_fuel ob)%nat ->
   (exists d st, snd (ms o) = Ok d /\ d_st d = Some st /\ is_leaf M st = true) \/
   (exists line, snd (ms o) = Fault (FAssert line) /\ sm_asrt sc = true /\ In line seg_lines)).
Proof.
  intros c mem0 statics prios dqs pools rs obj s chs x w ms o rank home order mu d0 e0 SO Es Ew Em Hst Hoff ob sc M W Hi Ha E0 Hd0 Hn.
  destruct (arun_ok c mem0 statics prios dqs pools rs obj SO s chs x w Es Ew) as (ms' & Em' & Hm & Hs).
  rewrite Em in Em'. injection Em' as <-. rewrite (Hm o (off_none o _ Hoff)), Hst. cbn [snd].
  destruct (alone_calls ob rank home W Hi Ha (handled o w) d0 e0 E0 Hd0 Hn (Hs o)) as [Ec Hk]. fold ob. fold sc M in Ec.
  split; [exact Ec|]. intros P D C Hf.
  destruct (C53_returns sc M rank home (ob_grd ob) order mu W P D C (ob_fuel ob) (ob_ist ob) (ob_iact ob) _ Hi (calls_ok ob Ha (handled o w)) Hf)
    as [(d & E)|(line & E & H1 & H2)]; rewrite <- Ec in E.
  - left. destruct (Hk d E) as (_ & st & E1 & E2 & _). exists d, st. auto.
  - right. exists line. auto.
Qed.
Definition K_obj (o : nat) : smobj := mkObj xc xm xgrd 44 0 None (fun _ => xars).
Example C56_not_off_ex : forall o, ~ In (EL (KOff o)) (c_log (K_at K_turns)).
Proof.
  let l := eval vm_compute in (c_log (K_at K_turns)) in assert (E : c_log (K_at K_turns) = l) by (vm_compute; reflexivity).
  rewrite E. intros o H. cbn [In] in H. repeat (destruct H as [H|H]; [discriminate|]). exact H.
Qed.
Example C56_ex :
  match arun K_cfg K_statics K_obj (conf0 K_s0) machines0 K_turns with
  | Ok (x, ms) =>
    is_started 1 K_obs = true /\ handled 1 K_obs = [Some 5; Some 6] /\
    match snd (ms 1%nat), alone (K_obj 1) [Some 5; Some 6] with Ok d, Ok d1 => d_st d = Some 4%nat /\ d_st d1 = Some 4%nat /\ d_log d = d_log d1 | _, _ => False end /\
    match snd (ms 0%nat) with Ok d => d_st d = Some 0%nat | Fault _ => False end
  | Fault _ => False
  end.
Proof. vm_compute. repeat split. Qed.
(** The hypotheses about the machine. *)
Example C56_machine_ex :
  let ob := K_obj 1 in
  wf_machine xc xm xrank xhome = true /\ wf_initial xc xm xhome 0 = true /\ (forall k, arrays_ok xc (ob_ars ob k)) /\
  match sm_init xc xm xgrd 44 0 None blank xars with Ok (d, _) => d_st d <> None | Fault _ => False end /\
  ~ In (Some (sm_any xc - 2)) (handled 1 K_obs) /\ paths_end xm xorder = true /\ defaults_enter xm = true /\ completions_end xc xm xmu = true /\
  (turns xc xm + S (highest xm xmu) <= ob_fuel ob)%nat.
Proof.
  split; [exact x_wf|]. split; [exact x_init|]. split; [intros k; exact x_ars|]. split; [vm_compute; discriminate|].
  split; [|vm_compute; auto 10]. replace (handled 1 K_obs) with [Some 5; Some 6] by (vm_compute; reflexivity).
  intros [H|[H|[]]]; vm_compute in H; discriminate.
Qed.

(** * C57 The kernel writes only to blocks of the event pools *)
Theorem C57_only_blocks :
  forall c mem0 statics prios dqs pools rs x a, sys_ok c mem0 statics prios dqs pools rs ->
  reachable c mem0 statics prios dqs pools x -> (forall i, ~ block_of pools rs i a) -> k_mem (c_s x) a = mem0 a.
Proof.
  intros c mem0 statics prios dqs pools rs x a SO H Ha.
  apply (km_rest _ _ _ _ _ _ _ _ _ _ (ki_mem _ _ _ _ _ _ _ _ _ (ci_k _ _ _ _ _ _ _ _ (reach_inv _ _ _ _ _ _ _ SO x H)))).
  intros [i Hi]. apply (Ha i). now apply inpool_block.
Qed.
(** Address 1048 is in the storage of the first pool, which has room for three
    blocks of 16 bytes, and 1001 inside a block: only the first bytes of a block
    are ever written. *)
Example C57_ex :
  (forall i, ~ block_of K_pools K_rs i 1048) /\ (forall i, ~ block_of K_pools K_rs i 1001) /\
  k_mem (c_s (K_at K_turns)) 1048 = Some CRaw /\ k_mem (c_s (K_at K_turns)) 1001 = Some CRaw /\ k_mem (c_s (K_at K_turns)) 1000 <> Some CRaw.
Proof.
  assert (G : forall a, ~ In a ([1000; 1016; 1032] ++ [2000; 2040]) -> forall i, ~ block_of K_pools K_rs i a).
  { intros a Ha i (p & r & Hp & Hr & Hi). apply Ha. apply in_app_iff. destruct i as [|[|i]]; cbn in Hp, Hr; [| |destruct i; discriminate];
      injection Hp as <-; injection Hr as <-; vm_compute in Hi; auto. }
  split; [apply G; vm_compute; intuition discriminate|]. split; [apply G; vm_compute; intuition discriminate|].
  vm_compute. repeat split. discriminate.
Qed.

Print Assumptions C54_one_at_a_time.
Print Assumptions C54_starts_alone.
Print Assumptions C54_runs_on.
Print Assumptions C54_initial_first.
Print Assumptions C55_replay.
Print Assumptions C55_in_order.
Print Assumptions C56_as_alone.
Print Assumptions C56_application.
Print Assumptions C57_only_blocks.
