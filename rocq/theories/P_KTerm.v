(** Theorems about rkh_sma_terminate in arbitrary executions of the kernel. *)
From Verif Require Import Base L_Base M_RdyGrp M_Queue M_MemPool M_Kernel S_Kernel S_App L_KMem L_KQueue L_Kernel L_KRun L_KBoot L_KProps L_KSched L_App
  P_KExample P_Kernel P_App.
Local Open Scope N_scope.

(** * C83 Terminating an active object that has nothing to do *)
(** Whoever is not registered has nothing waiting, in any state of any execution
    with activations, terminations and interrupts. *)
Theorem C83_nothing_left :
  forall c mem0 statics prios dqs pools rs x o, sys_ok c mem0 statics prios dqs pools rs ->
  reachable c mem0 statics prios dqs pools x -> registered (c_s x) o = false -> ao_view (c_s x) o = [].
Proof.
  intros c mem0 statics prios dqs pools rs x o SO H Hr. apply (not_stranded c (so_max _ _ _ _ _ _ _ SO) (so_asrt _ _ _ _ _ _ _ SO)); [|exact Hr].
  eapply KInv_stranded. exact (ci_k _ _ _ _ _ _ _ _ (reach_inv _ _ _ _ _ _ _ SO x H)).
Qed.

(** Events are handed to registered objects only. *)
Theorem C83_only_registered :
  forall c mem0 statics prios dqs pools rs x ch x' o e, sys_ok c mem0 statics prios dqs pools rs ->
  reachable c mem0 statics prios dqs pools x -> cstep c statics x ch = Ok x' ->
  In (EU (UDispatch o e)) (skipn (length (c_log x)) (c_log x')) -> registered (c_s x) o = true.
Proof.
  intros c mem0 statics prios dqs pools rs x ch x' o e SO H E Hi.
  destruct (disp_front c mem0 statics prios dqs pools rs SO x ch x' o e H E Hi) as (w & Ew & _).
  apply (view_reg c mem0 statics prios dqs pools rs SO x o H). rewrite Ew. discriminate.
Qed.

(** The call takes an object whose queue is empty out of the registry and does
    nothing else. *)
Theorem C83_terminate :
  forall c mem0 statics prios dqs pools rs x o led u k stk, sys_ok c mem0 statics prios dqs pools rs ->
  reachable c mem0 statics prios dqs pools x -> c_stk x = mkF false led (User u k) :: stk ->
  registered (c_s x) o = true -> ao_view (c_s x) o = [] ->
  exists x', crun c statics x [ChCall (OTerm o); ChGo; ChGo; ChGo] = Ok x' /\
    (forall o', registered (c_s x') o' = if Nat.eqb o' o then false else registered (c_s x) o') /\
    (forall a, nth_error (k_ao (c_s x)) o = Some a -> nth_error (k_sp (c_s x')) (N.to_nat (ao_prio a)) = Some None) /\
    k_ao (c_s x') = k_ao (c_s x) /\ k_dq (c_s x') = k_dq (c_s x) /\ k_mem (c_s x') = k_mem (c_s x) /\
    k_ep (c_s x') = k_ep (c_s x) /\ k_rg (c_s x') = k_rg (c_s x) /\ k_ch (c_s x') = k_ch (c_s x) /\
    c_stk x' = c_stk x /\ c_led x' = c_led x /\ c_log x' = c_log x ++ [EL (KOff o)].
Proof.
  intros c mem0 statics prios dqs pools rs x o led u k stk SO H Hs Hr Hv.
  pose proof (reach_inv _ _ _ _ _ _ _ SO x H) as HC. pose proof (ci_k _ _ _ _ _ _ _ _ HC) as HK. pose proof (ki_q _ _ _ _ _ _ _ _ _ HK) as HQ.
  destruct (nth_error (k_ao (c_s x)) o) as [a|] eqn:Ho; [|unfold registered in Hr; rewrite Ho in Hr; discriminate].
  pose proof (proj1 (reg_registered _ o a Ho) Hr) as Hp. unfold reg in Hp.
  assert (Hlt : ao_prio a < max_sma (q_rg (k_qc c))) by (eapply reg_lt; [exact (so_max _ _ _ _ _ _ _ SO)|exact (so_asrt _ _ _ _ _ _ _ SO)|exact HQ|exact Hp]).
  assert (Hb : forall l, (forall e, cnt l (LRef e) = cnt (led_all x) (LRef e)) -> forall s', all_queued s' = all_queued (c_s x) -> over statics s' l = false).
  { intros l Hl s' Hq. apply not_over. intros e He. pose proof (reach_bnd _ _ _ _ _ _ _ SO x e H He) as B. unfold holders in *. rewrite Hq, Hl. exact B. }
  set (s' := set_sp (c_s x) (upd (k_sp (c_s x)) (N.to_nat (ao_prio a)) None)).
  assert (Hreg : forall o', registered s' o' = if Nat.eqb o' o then false else registered (c_s x) o').
  { intros o'. unfold registered, s'. cbn [k_ao k_sp set_sp]. destruct (Nat.eqb o' o) eqn:Eo.
    - apply Nat.eqb_eq in Eo. subst o'. rewrite Ho, nth_upd_eq by (eapply nth_some_lt; exact Hp). reflexivity.
    - destruct (nth_error (k_ao (c_s x)) o') as [a'|] eqn:Ho'; [|reflexivity].
      destruct (Nat.eq_dec (N.to_nat (ao_prio a)) (N.to_nat (ao_prio a'))) as [Ep|Ep].
      + rewrite <- Ep, nth_upd_eq by (eapply nth_some_lt; exact Hp). rewrite Hp. now rewrite Eo.
      + rewrite nth_upd_ne by exact Ep. reflexivity. }
  assert (Hst : stranded (c_s x) = false) by (eapply KInv_stranded; exact HK).
  assert (Hst' : stranded s' = false).
  { destruct (stranded s') eqn:E; [|reflexivity]. apply existsb_exists in E. destruct E as (o' & _ & E). apply andb_true_iff in E. destruct E as [E1 E2].
    apply negb_true_iff in E1. rewrite Hreg in E1. change (ao_view s' o') with (ao_view (c_s x) o') in E2. destruct (Nat.eqb o' o) eqn:Eo.
    - apply Nat.eqb_eq in Eo. subst o'. rewrite Hv in E2. discriminate.
    - rewrite (not_stranded c (so_max _ _ _ _ _ _ _ SO) (so_asrt _ _ _ _ _ _ _ SO) _ o' Hst E1) in E2. discriminate. }
  exists (mkC s' (c_led x) (c_stk x) (c_log x ++ [EL (KOff o)])). split; [|].
  2:{ cbn [c_s c_stk c_led c_log]. split; [exact Hreg|]. split; [|unfold s'; cbn; auto 12].
      intros a' Ea'. injection Ea' as <-. unfold s'. cbn [k_sp set_sp]. apply nth_upd_eq. eapply nth_some_lt. exact Hp. }
  cbn [crun]. cbn [cstep]. rewrite Hs. cbn [f_p f_isr]. unfold grab, op_ok. rewrite Hr. cbn [negb andb op_evt bind].
  cbn [cstep c_stk c_s c_led c_log api sma_terminate sma_unregister f_p f_led f_isr].
  unfold sma_terminate, sma_unregister. rewrite (proj2 (rd_ok _ _ _) Ho). cbn [bind].
  replace (ao_prio a <=? max_sma (q_rg (k_qc c))) with true by lia.
  rewrite (proj2 (rd_ok _ _ _) Hp). cbn [bind]. rewrite Nat.eqb_refl, rassert_true. cbn [bind fold_left].
  rewrite (Hb ([LReg o] ++ _)); [|intros e; unfold led_all; rewrite Hs; reflexivity|reflexivity].
  rewrite Hst. cbn [orb bind].
  cbn [cstep c_stk c_s c_led c_log f_p f_led f_isr]. rewrite wr_lt by (eapply nth_some_lt; exact Hp). cbn [bind fold_left led_step filter is_right].
  rewrite Hb; [|intros e; unfold led_all; rewrite Hs; reflexivity|reflexivity].
  fold s'. rewrite Hst'. cbn [orb bind cstep c_stk c_s c_led c_log f_p f_led f_isr filter app map user_of]. rewrite !app_nil_r. reflexivity.
Qed.

(** After it the object can be activated again, with any storage: it is registered
    then and its queue is empty. *)
Theorem C83_again :
  forall c mem0 statics prios dqs pools rs x o led u k stk qs n, sys_ok c mem0 statics prios dqs pools rs ->
  reachable c mem0 statics prios dqs pools x -> c_stk x = mkF false led (User u k) :: stk ->
  registered (c_s x) o = true -> ao_view (c_s x) o = [] -> (0 < n)%nat ->
  exists x' s', crun c statics x [ChCall (OTerm o); ChGo; ChGo; ChGo] = Ok x' /\ reachable c mem0 statics prios dqs pools x' /\
    exec (sma_activate c o qs n) (c_s x') = Ok (s', [KInit o; KReg o], 0) /\
    (forall o', registered s' o' = registered (c_s x) o') /\ (forall o', ao_view s' o' = ao_view (c_s x) o') /\ ao_room s' o n.
Proof.
  intros c mem0 statics prios dqs pools rs x o led u k stk qs n SO H Hs Hr Hv Hn.
  destruct (C83_terminate c mem0 statics prios dqs pools rs x o led u k stk SO H Hs Hr Hv)
    as (x' & Ex & Hreg & Hfr & Ea & _ & _ & _ & _ & _ & _).
  assert (H' : reachable c mem0 statics prios dqs pools x') by (eapply reach_run; eauto).
  pose proof (ki_q _ _ _ _ _ _ _ _ _ (ci_k _ _ _ _ _ _ _ _ (reach_inv _ _ _ _ _ _ _ SO x H))) as HQ.
  pose proof (ki_q _ _ _ _ _ _ _ _ _ (ci_k _ _ _ _ _ _ _ _ (reach_inv _ _ _ _ _ _ _ SO x' H'))) as HQ'.
  destruct (nth_error (k_ao (c_s x)) o) as [a|] eqn:Ho; [|unfold registered in Hr; rewrite Ho in Hr; discriminate].
  pose proof (proj1 (reg_registered _ o a Ho) Hr) as Hp. unfold reg in Hp.
  assert (Hlt : ao_prio a < max_sma (q_rg (k_qc c))) by (eapply reg_lt; [exact (so_max _ _ _ _ _ _ _ SO)|exact (so_asrt _ _ _ _ _ _ _ SO)|exact HQ|exact Hp]).
  assert (Hf : nth_error (k_sp (c_s x')) (N.to_nat (ao_prio a)) = Some None) by now apply Hfr.
  assert (Ha' : nth_error (k_ao (c_s x')) o = Some a) by now rewrite Ea.
  destruct (proj1 (C24_activate c mem0 statics prios dqs pools rs SO x' o a qs n H' Ha' Hlt Hn) Hf) as (s' & E & R1 & R2 & V & Rm & _).
  exists x', s'. split; [exact Ex|]. split; [exact H'|]. split; [exact E|]. split; [|split; [|exact Rm]].
  - intros o'. destruct (Nat.eq_dec o' o) as [->|Hne]; [now rewrite R1, Hr|]. rewrite (R2 o' Hne), Hreg.
    now apply Nat.eqb_neq in Hne as ->.
  - intros o'. rewrite V. unfold ao_view. rewrite Ea. destruct (Nat.eqb o' o) eqn:Eo; [|reflexivity]. apply Nat.eqb_eq in Eo. subst o'.
    unfold ao_view in Hv. now rewrite Hv.
Qed.

(** Main terminates object 1 once all three are subscribed, activates it again with
    a longer queue and posts to it; then the scheduler runs. *)
Definition K_term : list choice := K_subs ++ ChCall (OTerm 1) :: go 3.
Definition K_again : list choice :=
  K_term ++ (ChCall (OActivate 1 [None; None; None] 3) :: go 5) ++ (ChCall (OPost false 1 50) :: go 2) ++ go 4.
Example C83_ex :
  K_reach (K_at K_subs) /\ registered (c_s (K_at K_subs)) 1 = true /\ ao_view (c_s (K_at K_subs)) 1 = [] /\
  match c_stk (K_at K_subs) with mkF false _ (User UMain _) :: _ => True | _ => False end /\
  K_reach (K_at K_term) /\ map (registered (c_s (K_at K_term))) [0; 1; 2]%nat = [true; false; true] /\
  K_reach (K_at K_again) /\ map (registered (c_s (K_at K_again))) [0; 1; 2]%nat = [true; true; true] /\
  dispatched 1 (c_log (K_at K_again)) = [50] /\
  init_count 1 (c_log (K_at K_again)) = 2%nat /\ off_count 1 (c_log (K_at K_again)) = 1%nat.
Proof.
  split; [apply K_reachable; vm_compute; reflexivity|]. split; [vm_compute; reflexivity|]. split; [vm_compute; reflexivity|].
  split; [vm_compute; exact I|]. split; [apply K_reachable; vm_compute; reflexivity|]. split; [vm_compute; reflexivity|].
  split; [apply K_reachable; vm_compute; reflexivity|]. vm_compute. auto.
Qed.
(** An object does so to itself while it handles its last event: the step into that
    dispatch, and the scheduler afterwards. *)
Definition K_self : list choice :=
  K_again ++ ChCall (OTerm 1) :: go 20.
Example C83_self_ex :
  K_ran (removelast K_again) = true /\ cstep K_cfg K_statics (K_at (removelast K_again)) ChGo = Ok (K_at K_again) /\
  K_reach (K_at K_self) /\ map (registered (c_s (K_at K_self))) [0; 1; 2]%nat = [true; false; true] /\
  off_count 1 (c_log (K_at K_self)) = 2%nat /\ existsb (fun y => match y with EU UIdle => true | _ => false end) (c_log (K_at K_self)) = true.
Proof.
  assert (Hr : K_ran (removelast K_again) = true) by (vm_compute; reflexivity).
  assert (Ht : K_ran K_again = true) by (vm_compute; reflexivity).
  split; [exact Hr|]. split.
  { unfold K_ran, K_at in *. assert (El : K_again = removelast K_again ++ [ChGo]) by reflexivity. rewrite El in Ht |- * at 2. rewrite crun_snoc in Ht |- *.
    destruct (crun K_cfg K_statics (conf0 K_s0) (removelast K_again)) as [y|]; [|discriminate]. cbn [bind ok_or] in *.
    destruct (cstep K_cfg K_statics y ChGo); [reflexivity|discriminate]. }
  split; [apply K_reachable; vm_compute; reflexivity|]. vm_compute. auto.
Qed.

(** Its subscriptions stay: after the termination a publication on a channel it
    subscribed to asserts, unless it unsubscribed before. *)
Theorem C83_still_subscribed_refuted :
  K_reach (K_at K_term) /\ subscribers (c_s (K_at K_term)) 0 = [0; 1; 2] /\
  exec (ps_publish K_cfg 0 50 None) (c_s (K_at K_term)) = Fault (FAssert 168) /\
  match exec_all K_cfg (c_s (K_at K_subs)) [OUnsubAll 1; OTerm 1; OPublish 0 50 None] with
  | Ok s => map (ao_view s) [0; 1; 2]%nat = [[50]; []; [50]]
  | Fault _ => False
  end.
Proof. split; [apply K_reachable; vm_compute; reflexivity|]. vm_compute. auto. Qed.

(** Nor does a post check the registry: an event posted after the termination, or
    by a timer that still runs, is accepted, and the next turn of the scheduler
    dereferences NULL. *)
Theorem C83_post_after_refuted :
  K_reach (K_at K_term) /\ registered (c_s (K_at K_term)) 1 = false /\
  let broken p := match exec p (c_s (K_at K_term)) with
                  | Ok (s', _, _) => ao_view s' 1 = [50] /\ registered s' 1 = false /\ exec (sched_once K_cfg) s' = Fault (FUB UB_null)
                  | Fault _ => False end in
  broken (sma_post K_cfg false 1 50) /\ broken (sma_post K_cfg true 1 50) /\ broken (tick_posts K_cfg [(1%nat, 50)]).
Proof.
  split; [apply K_reachable; vm_compute; reflexivity|]. split; [vm_compute; reflexivity|].
  split; [vm_compute; auto|]. split; vm_compute; auto.
Qed.

Print Assumptions C83_nothing_left.
Print Assumptions C83_only_registered.
Print Assumptions C83_terminate.
Print Assumptions C83_again.
Print Assumptions C83_still_subscribed_refuted.

Print Assumptions C83_post_after_refuted.
