(** Theorems about timers in the running system. *)
From Verif Require Import Base L_Base M_Tmr S_Tmr L_Tmr M_RdyGrp M_Queue M_MemPool M_Kernel S_Kernel L_KMem L_Kernel L_KRun L_KBoot L_KProps
  S_App P_KExample M_TmrSys S_TmrSys L_TmrSys.
Local Open Scope N_scope.

(** * C58 A started timer delivers its event to its active object on time *)
(** With timers in use the kernel makes the steps of S_Kernel, so every theorem about
    reachable states holds, and the timers make the calls of S_Tmr. *)
Theorem C58_one_system :
  forall tc c mem0 statics prios dqs pools rs s h to ev l y, sys_ok c mem0 statics prios dqs pools rs ->
  start c mem0 prios dqs pools = Ok s -> yrun tc c statics (tsys0 s h to ev) l = Ok y ->
  reachable c mem0 statics prios dqs pools (y_k y) /\
  run (tm_step tc no_hook) (tm_init h, []) (map fst (y_hist y)) = Ok (y_t y, map snd (y_hist y)).
Proof.
  intros tc c mem0 statics prios dqs pools rs s h to ev l y SO Es E.
  destruct (yrun_inv tc c mem0 statics prios dqs pools rs SO h l _ (tsys0_inv tc c mem0 statics prios dqs pools s h to ev Es)) as [(y' & E' & HI)|(f & E' & _)];
    [|congruence].
  assert (y' = y) by congruence. subst y'. split; apply HI.
Qed.
(** Nothing fails, except for want of space: a full queue or no free block. *)
Theorem C58_resources_only :
  forall tc c mem0 statics prios dqs pools rs s h to ev l f, sys_ok c mem0 statics prios dqs pools rs ->
  start c mem0 prios dqs pools = Ok s -> yrun tc c statics (tsys0 s h to ev) l = Fault f -> resource_fault f.
Proof.
  intros tc c mem0 statics prios dqs pools rs s h to ev l f SO Es E.
  destruct (yrun_inv tc c mem0 statics prios dqs pools rs SO h l _ (tsys0_inv tc c mem0 statics prios dqs pools s h to ev Es)) as [(y' & E' & HI)|(f' & E' & H)];
    congruence.
Qed.
(** What a tick does in state [y] when the timers [fired] expire: if the queues have
    room, each timer's event goes to the end of the queue of its active object and
    nothing else changes in any queue; otherwise the post assertion fails. *)
Definition tick_delivers (tc : tmcfg) (c : kcfg) (statics : list (N * N)) (y : tsys) (fired : list N) : Prop :=
  (tmr_room y fired -> exists y', ystep tc c statics y YTick = Ok y' /\
     c_log (y_k y') = c_log (y_k y) ++ tmr_posts y fired /\
     forall o, ao_view (c_s (y_k y')) o = ao_view (c_s (y_k y)) o ++ tmr_events y o fired) /\
  (~ tmr_room y fired -> ystep tc c statics y YTick = Fault (FAssert 223)).
Lemma delivers tc c mem0 statics prios dqs pools rs h y : sys_ok c mem0 statics prios dqs pools rs -> YInv tc c mem0 statics prios dqs pools h y ->
  exists fired, NoDup fired /\ (forall t, In t fired <-> fires (track t None (y_hist y)) = true) /\ tick_delivers tc c statics y fired.
Proof.
  intros SO HI. destruct (ystep tc c statics y YTick) as [y'|f] eqn:E.
  - destruct (tick_effects tc c mem0 statics prios dqs pools rs SO h y y' HI E) as (fired & F1 & F2 & F0 & F3 & F4 & _).
    exists fired. split; [exact F1|]. split; [exact F2|]. split; [|contradiction]. intros _. exists y'. auto.
  - destruct (tick_faults tc c mem0 statics prios dqs pools rs SO h y f HI E) as (-> & fired & F1 & F2 & F3).
    exists fired. split; [exact F1|]. split; [exact F2|]. split; [contradiction|]. auto.
Qed.
(** After a timer is started, whatever the application, the scheduler, the other
    timers and the interrupts do meanwhile: each tick that the count and the period
    make due appends the timer's event, once, to the queue of the active object it
    was started for; no other tick does. *)
Theorem C58_on_time :
  forall tc c mem0 statics prios dqs pools rs s h to ev pre t o n p mid y1 y2 y3,
  sys_ok c mem0 statics prios dqs pools rs -> start c mem0 prios dqs pools = Ok s ->
  yrun tc c statics (tsys0 s h to ev) pre = Ok y1 ->
  In t (snd (y_t y1)) -> registered (c_s (y_k y1)) o = true -> 0 < n < tnt_mod tc -> p < tnt_mod tc ->
  ystep tc c statics y1 (YStart t o n p) = Ok y2 ->
  Forall (leaves t) mid -> yrun tc c statics y2 mid = Ok y3 ->
  y_to y3 t = o /\ y_ev y3 t = y_ev y1 t /\
  exists fired, NoDup fired /\ (In t fired <-> due n p (ticks mid + 1) = true) /\ tick_delivers tc c statics y3 fired.
Proof.
  intros tc c mem0 statics prios dqs pools rs s h to ev pre t o n p mid y1 y2 y3 SO Es E1 Ht Hr Hn Hp E2 Hl E3.
  destruct (yrun_inv tc c mem0 statics prios dqs pools rs SO h pre _ (tsys0_inv tc c mem0 statics prios dqs pools s h to ev Es)) as [(y' & E' & I1)|(f & E' & _)];
    [|congruence].
  assert (y' = y1) by congruence. subst y'.
  pose proof (ystep_inv tc c mem0 statics prios dqs pools rs SO h _ _ _ I1 E2) as I2.
  destruct (start_track tc c mem0 statics prios dqs pools h y1 t o n p y2 I1 Ht Hr Hn Hp E2) as (T2 & O2 & V2).
  destruct (yrun_inv tc c mem0 statics prios dqs pools rs SO h mid _ I2) as [(y' & E'' & I3)|(f & E'' & _)]; [|congruence].
  assert (y' = y3) by congruence. subst y'.
  destruct (leaves_track tc c mem0 statics prios dqs pools rs SO h t mid y2 y3 I2 Hl E3) as (T3 & O3 & V3 & _).
  split; [congruence|]. split; [congruence|].
  destruct (delivers tc c mem0 statics prios dqs pools rs h y3 SO I3) as (fired & F1 & F2 & F3).
  exists fired. split; [exact F1|]. split; [|exact F3].
  rewrite F2, T3, T2, due_fires by lia. now rewrite N2Nat.id.
Qed.
(** A timer that was stopped, or initialised again, expires on no tick until it is
    started again. *)
Theorem C58_not_after_stop :
  forall tc c mem0 statics prios dqs pools rs s h to ev pre t a mid y1 y2 y3,
  sys_ok c mem0 statics prios dqs pools rs -> start c mem0 prios dqs pools = Ok s ->
  yrun tc c statics (tsys0 s h to ev) pre = Ok y1 ->
  (a = YStop t /\ In t (snd (y_t y1))) \/ (exists e, a = YInit t e /\ is_static statics e = true) ->
  ystep tc c statics y1 a = Ok y2 ->
  Forall (leaves t) mid -> yrun tc c statics y2 mid = Ok y3 ->
  exists fired, NoDup fired /\ ~ In t fired /\ tick_delivers tc c statics y3 fired.
Proof.
  intros tc c mem0 statics prios dqs pools rs s h to ev pre t a mid y1 y2 y3 SO Es E1 Ha E2 Hl E3.
  destruct (yrun_inv tc c mem0 statics prios dqs pools rs SO h pre _ (tsys0_inv tc c mem0 statics prios dqs pools s h to ev Es)) as [(y' & E' & I1)|(f & E' & _)];
    [|congruence].
  assert (y' = y1) by congruence. subst y'.
  pose proof (ystep_inv tc c mem0 statics prios dqs pools rs SO h _ _ _ I1 E2) as I2.
  pose proof (stop_track tc c mem0 statics prios dqs pools h y1 t a y2 I1 Ha E2) as T2.
  destruct (yrun_inv tc c mem0 statics prios dqs pools rs SO h mid _ I2) as [(y' & E'' & I3)|(f & E'' & _)]; [|congruence].
  assert (y' = y3) by congruence. subst y'.
  destruct (leaves_track tc c mem0 statics prios dqs pools rs SO h t mid y2 y3 I2 Hl E3) as (T3 & _).
  destruct (delivers tc c mem0 statics prios dqs pools rs h y3 SO I3) as (fired & F1 & F2 & F3).
  exists fired. split; [exact F1|]. split; [|exact F3].
  rewrite F2, T3, T2, ticked_none. discriminate.
Qed.

(** Two timers: 900 one-shot for object 1 (queue of two), carrying event 50, and 901
    periodic for object 0, carrying event 60.  Between the ticks an event is
    allocated and posted, and an interrupt comes. *)
Definition Y_tc : tmcfg := mkTmCfg true 65536.
Definition Y_0 : tsys := tsys0 K_s0 (fun _ => mkTmr (Some 3) 9 9 true) (fun _ => 7%nat) (fun _ => 0).
Definition Y_at (l : list yop) : tsys := ok_or Y_0 (yrun Y_tc K_cfg K_statics Y_0 l).
Definition Y_ran (l : list yop) : bool := is_ok (yrun Y_tc K_cfg K_statics Y_0 l).
Definition Y_pre : list yop := map YKern K_boot ++ [YInit 900 50; YInit 901 60].
Definition Y_mid : list yop :=
  [YStart 901 0 1 2; YTick] ++ map YKern (ChGo :: ChGo :: ChCall (OAe 10 5) :: go 4) ++ [YTick; YKern ChIrq].
Example C58_ex :
  Y_ran (Y_pre ++ YStart 900 1 3 0 :: Y_mid ++ [YTick]) = true /\
  snd (y_t (Y_at Y_pre)) = [901; 900] /\ registered (c_s (y_k (Y_at Y_pre))) 1 = true /\
  ticks Y_mid = 2 /\ due 3 0 (ticks Y_mid + 1) = true /\ due 1 2 (ticks Y_mid + 1) = true /\
  let y3 := Y_at (Y_pre ++ YStart 900 1 3 0 :: Y_mid) in let y4 := Y_at (Y_pre ++ YStart 900 1 3 0 :: Y_mid ++ [YTick]) in
  skipn (length (c_log (y_k y3))) (c_log (y_k y4)) = [EL (KPut false 0 60); EL (KPut false 1 50)] /\
  ao_view (c_s (y_k y3)) 0 = [60] /\ ao_view (c_s (y_k y4)) 0 = [60; 60] /\
  ao_view (c_s (y_k y3)) 1 = [] /\ ao_view (c_s (y_k y4)) 1 = [50].
Proof. vm_compute. repeat split. Qed.
Example C58_ex_start : start K_cfg K_mem0 K_prios K_dqs K_pools = Ok K_s0.
Proof. unfold K_s0. destruct (start K_cfg K_mem0 K_prios K_dqs K_pools) eqn:E; [reflexivity|]. vm_compute in E. discriminate. Qed.
Example C58_ex_leaves : Forall (leaves 900) Y_mid.
Proof. unfold Y_mid. repeat constructor; discriminate. Qed.
(** Stopped before the third tick; and three timers for a queue of two. *)
Example C58_stop_ex :
  Y_ran (Y_pre ++ YStart 900 1 3 0 :: Y_mid ++ [YStop 900; YTick]) = true /\
  ao_view (c_s (y_k (Y_at (Y_pre ++ YStart 900 1 3 0 :: Y_mid ++ [YStop 900; YTick])))) 1 = [] /\
  yrun Y_tc K_cfg K_statics Y_0 (Y_pre ++ [YInit 902 50; YStart 900 1 1 0; YStart 901 1 1 0; YStart 902 1 1 0; YTick]) = Fault (FAssert 223).
Proof. vm_compute. repeat split. Qed.

Print Assumptions C58_one_system.
Print Assumptions C58_resources_only.
Print Assumptions C58_on_time.
Print Assumptions C58_not_after_stop.
