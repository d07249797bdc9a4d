(** Theorems about the trace records of the kernel. *)
From Verif Require Import Base L_Base M_RdyGrp M_Queue M_MemPool S_MemPool M_Kernel S_Kernel P_KExample S_KStat P_KStat M_KTrc S_KTrc L_KTrc.
Local Open Scope N_scope.

(** * C72 The figures in the trace records are the true ones *)

(** Right after a post, both of its records show the number of events that are now in
    the queue; the record of the framework also shows the header of the event, with the
    true number of its holders. *)
Theorem C72_post :
  forall c mem0 statics prios dqs pools rs x log lifo o e, sys_ok c mem0 statics prios dqs pools rs ->
  reachable c mem0 statics prios dqs pools x -> c_log x = log ++ [EL (KPut lifo o e)] ->
  exists sig pool nref nmin, let n := N.of_nat (length (ao_view (c_s x) o)) in
  sec_recs c (c_s x) (KPut lifo o e) = Ok [TQuePut lifo (QAo o) n nmin; TSmaPost lifo o sig pool nref n nmin] /\ 0 < n /\
  hdr_shows statics pools rs (c_s x) (led_all x) e sig pool nref.
Proof. intros c mem0 statics prios dqs pools rs x log lifo o e SO. exact (post_rec c mem0 statics prios dqs pools rs SO x log lifo o e). Qed.
Print Assumptions C72_post.
(** The run of the kernel examples, prolonged: [K_step n x' ...] is what its choice [n] adds. *)
Definition K_run : list choice := K_turns ++ go 30.
Definition K_st (n : nat) : conf := K_at (firstn n K_run).
Definition K_news (n : nat) : list entry := skipn (length (c_log (K_st (n - 1)))) (c_log (K_st n)).
Lemma K_st_reach n : (n <=? length K_run)%nat = true -> K_reach (K_st n).
Proof.
  intros H. assert (Hr : is_ok (crun K_cfg K_statics (conf0 K_s0) K_run) = true) by (vm_compute; reflexivity).
  destruct (crun K_cfg K_statics (conf0 K_s0) K_run) as [y|] eqn:E; [|discriminate]. clear Hr.
  unfold K_st. apply K_reachable. unfold K_ran.
  rewrite <- (firstn_skipn n K_run) in E. revert E. generalize (skipn n K_run) as b. generalize (firstn n K_run) as a. generalize (conf0 K_s0) as z.
  intros z a. revert z. induction a as [|q a IH]; intros z b E; [reflexivity|]. cbn [app crun] in *.
  destruct (cstep K_cfg K_statics z q); [|discriminate]. eapply IH. exact E.
Qed.
(** The event 2000 of the second pool is posted to object 1, where another one waits. *)
Example C72_post_ex : K_reach (K_st 56) /\ K_news 56 = [EL (KPut false 1 2000)] /\
  sec_recs K_cfg (c_s (K_st 56)) (KPut false 1 2000) = Ok [TQuePut false (QAo 1) 2 0; TSmaPost false 1 6 2 1 2 0] /\
  sec_recs K_cfg (c_s (K_st 42)) (KPut true 0 60) = Ok [TQuePut true (QAo 0) 3 1; TSmaPost true 0 8 0 0 3 1].
Proof. split; [apply K_st_reach; vm_compute; reflexivity|]. vm_compute. repeat split. Qed.

(** A publication makes these two records for each receiver, in the order of the
    priorities, with one more reference each time; the one of the publisher counts. *)
Theorem C72_publish :
  forall c mem0 statics prios dqs pools rs x ch e i sender os, sys_ok c mem0 statics prios dqs pools rs ->
  reachable c mem0 statics prios dqs pools x -> let s := c_s x in let l := led_all x in
  ch < N.of_nat (k_maxch c) -> ch < 256 -> block_of pools rs i e -> live_evt statics s l e ->
  map (fun p => nth_error (k_sp s) (N.to_nat p)) (subscribers s ch) = map (fun o => Some (Some o)) os ->
  (forall o, In o os -> is_sender sender o = false -> ao_room s o 1) ->
  (holders s l e + 1 + length (filter (fun o => negb (is_sender sender o)) os) <= 255)%nat ->
  exists sig nref r, k_mem s e = Some (CEvt sig nref (N.of_nat i + 1)) /\ publish_trc c s ch e sender = Ok r /\
    pub_recs s sig (N.of_nat i + 1) (N.of_nat (holders s l e) + 1) (filter (fun o => negb (is_sender sender o)) os) r.
Proof. intros c mem0 statics prios dqs pools rs x ch e i sender os SO. exact (publish_recs c mem0 statics prios dqs pools rs SO x ch e i sender os). Qed.
Print Assumptions C72_publish.
Example C72_publish_ex : K_reach (K_at K_subs) /\ let x := K_at K_subs in let s := c_s x in
  block_of K_pools K_rs 0 1000 /\ live_evt K_statics s (led_all x) 1000 /\ subscribers s 0 = [0; 1; 2] /\
  map (fun p => nth_error (k_sp s) (N.to_nat p)) [0; 1; 2] = map (fun o => Some (Some o)) [1; 2; 0]%nat /\
  (forall o, In o [1; 2; 0]%nat -> is_sender (Some 2%nat) o = false -> ao_room s o 1) /\
  holders s (led_all x) 1000 = 0%nat /\ filter (fun o => negb (is_sender (Some 2%nat) o)) [1; 2; 0]%nat = [1; 0]%nat /\
  publish_trc K_cfg s 0 1000 (Some 2%nat) =
    Ok [TQuePut false (QAo 1) 1 1; TSmaPost false 1 5 1 2 1 1; TQuePut false (QAo 0) 1 3; TSmaPost false 0 5 1 3 1 3].
Proof.
  split; [apply K_reachable; vm_compute; reflexivity|]. cbv zeta. split.
  { exists (1000, 50, 10), 16. split; [reflexivity|]. split; [reflexivity|]. vm_compute. now left. }
  split; [right; left; vm_compute; now left|]. split; [vm_compute; reflexivity|]. split; [vm_compute; reflexivity|]. split.
  { intros o [<-|[<-|[<-|[]]]]; [intros _|discriminate|intros _]; eexists; (split; [vm_compute; reflexivity|vm_compute; lia]). }
  split; [vm_compute; reflexivity|]. split; vm_compute; reflexivity.
Qed.

(** When an event is taken out of a queue: the queue tells the number of events left, or
    that it was the last one; the framework tells the same, and the header of the event,
    provided that nothing interrupts it in between. *)
Theorem C72_get :
  forall c mem0 statics prios dqs pools rs x ch x' o e, sys_ok c mem0 statics prios dqs pools rs ->
  reachable c mem0 statics prios dqs pools x -> cstep c statics x ch = Ok x' ->
  c_log x' = c_log x ++ [EL (KGet o e); EU (UDispatch o e)] ->
  exists sig pool nref nmin, let n := N.of_nat (length (ao_view (c_s x') o)) in
  sec_recs c (c_s x') (KGet o e) = Ok [if n =? 0 then TQueGetLast (QAo o) else TQueGet (QAo o) n] /\
  sma_get_rec (c_s x') o e = Ok (TSmaGet o sig pool nref n nmin) /\
  ao_view (c_s x) o = e :: ao_view (c_s x') o /\ hdr_shows statics pools rs (c_s x') (led_all x') e sig pool nref.
Proof. intros c mem0 statics prios dqs pools rs x ch x' o e SO. exact (get_rec c mem0 statics prios dqs pools rs SO x ch x' o e). Qed.
Print Assumptions C72_get.
Example C72_get_ex : K_reach (K_st 66) /\ K_news 67 = [EL (KGet 1 1000); EU (UDispatch 1 1000)] /\
  sec_recs K_cfg (c_s (K_st 67)) (KGet 1 1000) = Ok [TQueGet (QAo 1) 1] /\
  sma_get_rec (c_s (K_st 67)) 1 1000 = Ok (TSmaGet 1 5 1 4 1 0) /\ holders (c_s (K_st 67)) (led_all (K_st 67)) 1000 = 4%nat /\
  K_news 73 = [EL (KGet 1 2000); EU (UDispatch 1 2000)] /\
  sec_recs K_cfg (c_s (K_st 73)) (KGet 1 2000) = Ok [TQueGetLast (QAo 1)].
Proof. split; [apply K_st_reach; vm_compute; reflexivity|]. vm_compute. repeat split. Qed.
(** Without that proviso they can contradict each other: the record of the framework is
    made after the critical section.  Object 2 takes its last event and an interrupt posts
    to it before the record: the queue tells that the last event was taken, then that one
    was put, then the framework that the get left one event. *)
Definition C72_race : list choice := firstn 80 K_run ++ [ChIrq; ChCall (OPost false 2 60)] ++ go 2.
Theorem C72_get_interrupted_refuted :
  K_reach (K_st 80) /\ K_news 80 = [EL (KGet 2 60); EU (UDispatch 2 60)] /\
  K_reach (K_at C72_race) /\ c_log (K_at C72_race) = c_log (K_st 80) ++ [EL (KPut false 2 60)] /\
  sec_recs K_cfg (c_s (K_st 80)) (KGet 2 60) = Ok [TQueGetLast (QAo 2)] /\
  sma_get_rec (c_s (K_st 80)) 2 60 = Ok (TSmaGet 2 8 0 0 0 2) /\
  sma_get_rec (c_s (K_at C72_race)) 2 60 = Ok (TSmaGet 2 8 0 0 1 2).
Proof.
  split; [apply K_st_reach; vm_compute; reflexivity|]. split; [vm_compute; reflexivity|].
  split; [apply K_reachable; vm_compute; reflexivity|]. vm_compute. repeat split.
Qed.
Print Assumptions C72_get_interrupted_refuted.

(** The deferral queues. *)
Theorem C72_defer :
  forall c mem0 statics prios dqs pools rs x d e, sys_ok c mem0 statics prios dqs pools rs ->
  reachable c mem0 statics prios dqs pools x ->
  (In e (dq_view (c_s x) d) ->
   exists sig pool nref nmin,
     sec_recs c (c_s x) (KDefer d e) = Ok [TQuePut false (QDq d) (N.of_nat (length (dq_view (c_s x) d))) nmin; TSmaDefer d sig] /\
     hdr_shows statics pools rs (c_s x) (led_all x) e sig pool nref) /\
  ((d < length dqs)%nat -> sec_recs c (c_s x) (KUndefer d e) = Ok [TQueGet (QDq d) (N.of_nat (length (dq_view (c_s x) d)))]).
Proof.
  intros c mem0 statics prios dqs pools rs x d e SO H. split; [exact (defer_rec c mem0 statics prios dqs pools rs SO x d e H)|].
  exact (undefer_rec c mem0 statics prios dqs pools rs SO x d e H).
Qed.
Print Assumptions C72_defer.
Example C72_defer_ex : K_reach (K_st 45) /\ K_news 45 = [EL (KDefer 0 1000)] /\ dq_view (c_s (K_st 45)) 0 = [1000] /\
  sec_recs K_cfg (c_s (K_st 45)) (KDefer 0 1000) = Ok [TQuePut false (QDq 0) 1 2; TSmaDefer 0 5].
Proof. split; [apply K_st_reach; vm_compute; reflexivity|]. vm_compute. repeat split. Qed.

(** The records of the memory pools show the number of blocks nobody uses, and the
    smallest number of free blocks at any time so far. *)
Theorem C72_blocks :
  forall c mem0 statics prios dqs pools rs x i p r a, sys_ok c mem0 statics prios dqs pools rs ->
  reachable c mem0 statics prios dqs pools x -> nth_error pools i = Some p -> nth_error rs i = Some r ->
  exists nmin, lowest (N.of_nat (length (pool_blocks p r))) i (c_log x) nmin /\
  let nfree := N.of_nat (length (filter (unused (c_s x) (led_all x) i) (pool_blocks p r))) in
  sec_recs c (c_s x) (KAlloc i a) = Ok [TMpGet i nfree nmin] /\ sec_recs c (c_s x) (KFree i a) = Ok [TMpPut i nfree].
Proof. intros c mem0 statics prios dqs pools rs x i p r a SO. exact (alloc_rec c mem0 statics prios dqs pools rs SO x i p r a). Qed.
Print Assumptions C72_blocks.
Example C72_blocks_ex : K_reach (K_st 49) /\ K_news 49 = [EL (KAlloc 1 2000)] /\
  sec_recs K_cfg (c_s (K_st 49)) (KAlloc 1 2000) = Ok [TMpGet 1 1 1] /\
  K_reach (K_st 77) /\ K_news 77 = [EL (KFree 1 2000)] /\ sec_recs K_cfg (c_s (K_st 77)) (KFree 1 2000) = Ok [TMpPut 1 2].
Proof.
  split; [apply K_st_reach; vm_compute; reflexivity|]. split; [vm_compute; reflexivity|]. split; [vm_compute; reflexivity|].
  split; [apply K_st_reach; vm_compute; reflexivity|]. vm_compute. repeat split.
Qed.

(** The record of a new event, made if nothing interrupts: its pool, counted from 0, no
    reference, the number of blocks in use and the smallest number of free ones, as bytes. *)
Theorem C72_new :
  forall c mem0 statics prios dqs pools rs x ch x' i e p r esize, sys_ok c mem0 statics prios dqs pools rs ->
  reachable c mem0 statics prios dqs pools x -> cstep c statics x ch = Ok x' -> c_log x' = c_log x ++ [EL (KStamp i e)] ->
  nth_error pools i = Some p -> nth_error rs i = Some r ->
  exists sig m, In e (pool_blocks p r) /\ holders (c_s x') (led_all x') e = 0%nat /\
  lowest (N.of_nat (length (pool_blocks p r))) i (c_log x') m /\
  fwk_ae_rec c (c_s x') esize i e = Ok (TFwkAe (esize mod k_es_mod c) sig (N.of_nat i) 0
    (u8 (N.of_nat (in_use (c_s x') (led_all x') i (pool_blocks p r)))) (u8 m)).
Proof. intros c mem0 statics prios dqs pools rs x ch x' i e p r esize SO. exact (ae_rec c mem0 statics prios dqs pools rs SO x ch x' i e p r esize). Qed.
Print Assumptions C72_new.
Example C72_new_ex : K_reach (K_st 49) /\ K_news 50 = [EL (KStamp 1 2000)] /\ fwk_ae_rec K_cfg (c_s (K_st 50)) 30 1 2000 = Ok (TFwkAe 30 6 1 0 1 1).
Proof. split; [apply K_st_reach; vm_compute; reflexivity|]. vm_compute. repeat split. Qed.

(** The record of a reference given back shows the number of holders left, at least one:
    one less than before. *)
Theorem C72_dec :
  forall c mem0 statics prios dqs pools rs x ch x' e, sys_ok c mem0 statics prios dqs pools rs ->
  reachable c mem0 statics prios dqs pools x -> cstep c statics x ch = Ok x' -> c_log x' = c_log x ++ [EL (KDec e)] ->
  exists i sig, block_of pools rs i e /\
  sec_recs c (c_s x') (KDec e) = Ok [TFwkGc sig (N.of_nat i + 1) (N.of_nat (holders (c_s x') (led_all x') e))] /\
  holders (c_s x) (led_all x) e = S (holders (c_s x') (led_all x') e) /\ (0 < holders (c_s x') (led_all x') e)%nat.
Proof. intros c mem0 statics prios dqs pools rs x ch x' e SO. exact (dec_rec c mem0 statics prios dqs pools rs SO x ch x' e). Qed.
Print Assumptions C72_dec.
Example C72_dec_ex : K_reach (K_st 69) /\ K_news 70 = [EL (KDec 1000)] /\ sec_recs K_cfg (c_s (K_st 70)) (KDec 1000) = Ok [TFwkGc 5 1 3].
Proof. split; [apply K_st_reach; vm_compute; reflexivity|]. vm_compute. repeat split. Qed.

(** The record of an event that goes back to its pool: it was held once and is not any
    more; its pool, counted from 0; one reference, the one given back now; and the number
    of blocks that will be in use afterwards, when at most 255 are in use. *)
Theorem C72_recycle :
  forall c mem0 statics prios dqs pools rs x ch x' i e p r, sys_ok c mem0 statics prios dqs pools rs ->
  reachable c mem0 statics prios dqs pools x -> cstep c statics x ch = Ok x' -> c_log x' = c_log x ++ [EL (KDead i e)] ->
  nth_error pools i = Some p -> nth_error rs i = Some r -> (in_use (c_s x') (led_all x') i (pool_blocks p r) <= 255)%nat ->
  exists sig m nused, In e (pool_blocks p r) /\ holders (c_s x) (led_all x) e = 1%nat /\ holders (c_s x') (led_all x') e = 0%nat /\
  lowest (N.of_nat (length (pool_blocks p r))) i (c_log x') m /\
  sec_recs c (c_s x') (KDead i e) = Ok [TFwkGcr sig (N.of_nat i) 1 nused (u8 m)] /\
  nused + 1 = N.of_nat (in_use (c_s x') (led_all x') i (pool_blocks p r)).
Proof.
  intros c mem0 statics prios dqs pools rs x ch x' i e p r SO H E El Hp Hr Hle.
  destruct (dead_rec c mem0 statics prios dqs pools rs SO x ch x' i e p r H E El Hp Hr) as (sig & m & A1 & A2 & A3 & A4 & A5 & A6 & A7).
  exists sig, m. eexists. split; [exact A1|]. split; [exact A2|]. split; [exact A3|]. split; [exact A4|]. split; [exact A6|].
  rewrite (A7 Hle). lia.
Qed.
Print Assumptions C72_recycle.
Example C72_recycle_ex : K_reach (K_st 75) /\ K_news 76 = [EL (KDead 1 2000)] /\
  in_use (c_s (K_st 76)) (led_all (K_st 76)) 1 (pool_blocks (2000, 80, 40) 40) = 1%nat /\
  sec_recs K_cfg (c_s (K_st 76)) (KDead 1 2000) = Ok [TFwkGcr 6 1 1 0 1].
Proof. split; [apply K_st_reach; vm_compute; reflexivity|]. vm_compute. repeat split. Qed.

(** The records do not agree on the number of a pool: a post and a reference given back
    count pools from 1, a new event and a recycled one from 0.  Two events of different
    pools show the same number. *)
Theorem C72_one_pool_number_refuted : exists p q r s sig sig',
  fwk_ae_rec K_cfg (c_s (K_st 50)) 30 1 2000 = Ok (TFwkAe 30 sig 1 0 p q) /\
  sec_recs K_cfg (c_s (K_st 56)) (KPut false 1 2000) = Ok [TQuePut false (QAo 1) r s; TSmaPost false 1 sig 2 1 r s] /\
  sec_recs K_cfg (c_s (K_st 70)) (KDec 1000) = Ok [TFwkGc sig' 1 3].
Proof. do 6 eexists. vm_compute. repeat split. Qed.
Print Assumptions C72_one_pool_number_refuted.

(** ** Counting records *)
(** The events waiting in a queue are the posts recorded minus the gets. *)
Theorem C72_queue_count :
  forall c mem0 statics prios dqs pools rs x o, sys_ok c mem0 statics prios dqs pools rs ->
  reachable c mem0 statics prios dqs pools x ->
  (length (ao_view (c_s x) o) + recs (is_get o) (c_log x) = recs (is_post o) (c_log x))%nat.
Proof. intros c mem0 statics prios dqs pools rs x o SO. exact (queue_count c mem0 statics prios dqs pools rs SO x o). Qed.
Print Assumptions C72_queue_count.
(** The blocks of a pool in use are the events created minus those recycled, up to the
    calls that are just at it. *)
Theorem C72_leak_count :
  forall c mem0 statics prios dqs pools rs x i p r, sys_ok c mem0 statics prios dqs pools rs ->
  reachable c mem0 statics prios dqs pools x -> nth_error pools i = Some p -> nth_error rs i = Some r ->
  (in_use (c_s x) (led_all x) i (pool_blocks p r) + recs (is_gcr i) (c_log x) =
   recs (is_ae i) (c_log x) + underway i (led_all x))%nat.
Proof. intros c mem0 statics prios dqs pools rs x i p r SO. exact (leak_count c mem0 statics prios dqs pools rs SO x i p r). Qed.
Print Assumptions C72_leak_count.
Example C72_count_ex : K_reach (K_st 76) /\ let x := K_st 76 in
  (recs (is_post 0) (c_log x), recs (is_get 0) (c_log x), length (ao_view (c_s x) 0)) = (3, 0, 3)%nat /\
  (recs (is_post 1) (c_log x), recs (is_get 1) (c_log x), length (ao_view (c_s x) 1)) = (2, 2, 0)%nat /\
  (recs (is_ae 0) (c_log x), recs (is_gcr 0) (c_log x), underway 0 (led_all x), in_use (c_s x) (led_all x) 0 (pool_blocks (1000, 50, 10) 16)) = (1, 0, 0, 1)%nat /\
  (recs (is_ae 1) (c_log x), recs (is_gcr 1) (c_log x), underway 1 (led_all x), in_use (c_s x) (led_all x) 1 (pool_blocks (2000, 80, 40) 40)) = (1, 1, 1, 1)%nat.
Proof. split; [apply K_st_reach; vm_compute; reflexivity|]. vm_compute. repeat split. Qed.

(** With more than 255 blocks in use the figure of a recycled event is wrong, and can be
    larger than the pool: the number of blocks in use comes as a byte, from which one is
    subtracted.  Here all 256 blocks of a pool are in use. *)
Definition C72_chs : list choice :=
  (ChCall (OActivate 0 [None; None] 2) :: go 5) ++ concat (repeat (ChCall (OAe 10 5) :: go 4) 256) ++
  (ChCall (OPost false 0 1000) :: go 2) ++ go 6.
Definition C72_s0 : kst := ok_or (kst0 C59_cfg C59_mem0 [0] []) C59_big.
Definition C72_at (chs : list choice) : conf := ok_or (conf0 C72_s0) (crun C59_cfg [] (conf0 C72_s0) chs).

Lemma C72_reach chs : is_ok (crun C59_cfg [] (conf0 C72_s0) chs) = true -> reachable C59_cfg C59_mem0 [] [0] [] [(1000, 4096, 16)] (C72_at chs).
Proof.
  intros H. exists C72_s0, chs. split.
  - unfold C72_s0. fold C59_big. assert (Hb : is_ok C59_big = true) by (vm_compute; reflexivity). destruct C59_big; [reflexivity|discriminate].
  - unfold C72_at. destruct (crun _ _ _ _); [reflexivity|discriminate].
Qed.
Theorem C72_recycle_256_refuted : exists x, reachable C59_cfg C59_mem0 [] [0] [] [(1000, 4096, 16)] x /\
  last (c_log x) (EU UIdle) = EL (KDead 0 1000) /\
  in_use (c_s x) (led_all x) 0 (pool_blocks (1000, 4096, 16) 16) = 256%nat /\ length (pool_blocks (1000, 4096, 16) 16) = 256%nat /\
  sec_recs C59_cfg (c_s x) (KDead 0 1000) = Ok [TFwkGcr 5 0 1 65535 0].
Proof.
  exists (C72_at (C72_chs ++ [ChGo])). split; [apply C72_reach; vm_compute; reflexivity|].
  split; [vm_compute; reflexivity|].
  split; [vm_compute; reflexivity|]. split; vm_compute; reflexivity.
Qed.
Print Assumptions C72_recycle_256_refuted.
