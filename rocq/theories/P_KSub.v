(** Theorems about publish and subscribe while other code interrupts. *)
From Verif Require Import Base L_Base M_RdyGrp M_Queue M_MemPool S_MemPool M_Kernel S_Kernel L_KMem L_Kernel L_KRun L_KBoot L_KProps
  L_KTab P_KExample S_KSub L_KSub.
From Coq Require Import Permutation.
Local Open Scope N_scope.

(** * C62 Publish/subscribe calls act one at a time, whatever interrupts them *)
(** Every execution has a history, and in it every publish/subscribe call made
    occurs once, unless it is still running and has had no effect yet. *)
Theorem C62_every_call : forall c mem0 statics prios dqs pools rs s chs y,
  sys_ok c mem0 statics prios dqs pools rs -> start c mem0 prios dqs pools = Ok s ->
  crun c statics (conf0 s) chs = Ok y ->
  exists x, hrun c statics (hconf0 s) chs = Ok x /\ h_c x = y /\
    Permutation (h_made x) (map hop (h_hist x) ++ waiting (h_run x)) /\ length (h_run x) = length (c_stk y).
Proof.
  intros c mem0 statics prios dqs pools rs s chs y SO Es Ey.
  destruct (hrun_total c statics chs (hconf0 s) y Ey) as (x & Ex & <-). exists x. split; [exact Ex|]. split; [reflexivity|].
  pose proof (hi_run c mem0 statics prios dqs pools rs SO s chs x Es Ex) as H. split; [apply (hi_made _ _ _ _ _ _ _ H)|].
  eapply hi_len. exact H.
Qed.
Print Assumptions C62_every_call.

(** At any time the subscribers of a channel are those whose last call in the
    history subscribed them. *)
Theorem C62_subscribers : forall c mem0 statics prios dqs pools rs s chs x ch,
  sys_ok c mem0 statics prios dqs pools rs -> start c mem0 prios dqs pools = Ok s ->
  hrun c statics (hconf0 s) chs = Ok x -> ch < N.of_nat (k_maxch c) ->
  subscribers (c_s (h_c x)) ch = members (max_sma (q_rg (k_qc c))) prios (h_hist x) ch.
Proof.
  intros c mem0 statics prios dqs pools rs s chs x ch SO Es Ex Hch.
  eapply hi_subs; [exact SO| |exact Hch]. eapply hi_run; eauto.
Qed.
Print Assumptions C62_subscribers.

(** A publication puts its event, once each and in order of priority, in the
    queues of the objects that the history before it leaves subscribed, except
    the sender, and in no other.  They are registered objects, or were terminated
    since. *)
Theorem C62_publish : forall c mem0 statics prios dqs pools rs s chs x h1 ch e sender ps h2,
  sys_ok c mem0 statics prios dqs pools rs -> start c mem0 prios dqs pools = Ok s ->
  hrun c statics (hconf0 s) chs = Ok x -> h_hist x = h1 ++ HPub ch e sender ps :: h2 ->
  exists os, map (nth_error prios) os = map Some (members (max_sma (q_rg (k_qc c))) prios h1 ch) /\
    (forall o, In o os -> registered (c_s (h_c x)) o = true \/ In (EL (KOff o)) (c_log (h_c x))) /\
    ps = map (fun o => (o, e)) (filter (fun o => negb (is_sender sender o)) os).
Proof.
  intros c mem0 statics prios dqs pools rs s chs x h1 ch e sender ps h2 SO Es Ex Eh.
  exact (hi_pub _ _ _ _ _ _ _ (hi_run c mem0 statics prios dqs pools rs SO s chs x Es Ex) _ _ _ _ _ _ Eh).
Qed.
Print Assumptions C62_publish.

(** Object 2 subscribes; object 0's call is interrupted before it takes effect by
    code that publishes and lets object 1 subscribe, itself interrupted by a
    publication; then object 2 publishes. *)
Definition C62_chs : list choice :=
  K_new ++ (ChCall (OSub 0 2) :: go 2) ++
  [ChCall (OSub 0 0); ChIrq; ChCall (OPublish 0 50 None)] ++ go 3 ++
  [ChCall (OSub 0 1); ChIrq; ChCall (OPublish 0 60 None)] ++ go 11 ++
  ChCall (OPublish 0 1000 (Some 2%nat)) :: go 1 ++ [ChIrq; ChCall (OUnsubAll 2)].
Example C62_ex : match hrun K_cfg K_statics (hconf0 K_s0) C62_chs with
  | Ok x =>
    (h_made x, h_hist x, waiting (h_run x)) =
      ([OSub 0 2; OSub 0 0; OPublish 0 50 None; OSub 0 1; OPublish 0 60 None; OPublish 0 1000 (Some 2%nat); OUnsubAll 2],
       [HSub (OSub 0 2); HPub 0 50 None [(2%nat, 50)]; HPub 0 60 None [(2%nat, 60)]; HSub (OSub 0 1); HSub (OSub 0 0);
        HPub 0 1000 (Some 2%nat) [(1%nat, 1000); (0%nat, 1000)]],
       [OUnsubAll 2]) /\
    subscribers (c_s (h_c x)) 0 = [0; 1; 2] /\ members 4 K_prios (h_hist x) 0 = [0; 1; 2]
  | Fault _ => False end.
Proof. vm_compute. repeat split; reflexivity. Qed.
