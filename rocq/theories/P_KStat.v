(** Theorems about the statistics of event pools. *)
From Verif Require Import Base L_Base M_RdyGrp M_Queue M_MemPool S_MemPool M_Kernel S_Kernel L_KMem L_Kernel L_KRun L_KBoot L_KProps P_KExample S_KStat L_KStat.
Local Open Scope N_scope.

(** * C59 The event pool statistics are the true figures *)
(** In every state: the number of blocks; the number of blocks in use, which are those
    somebody holds, queues or is allocating or returning; and the smallest number of
    blocks that were free at any time so far.  All three as bytes. *)
Theorem C59_figures :
  forall c mem0 statics prios dqs pools rs x i p r, sys_ok c mem0 statics prios dqs pools rs ->
  reachable c mem0 statics prios dqs pools x -> nth_error pools i = Some p -> nth_error rs i = Some r ->
  let s := c_s x in let n := N.of_nat (length (pool_blocks p r)) in
  evtPool_getNumBlock s i = Ok (u8 n) /\
  evtPool_getNumUsed c s i = Ok (u8 (N.of_nat (length (filter (fun a => negb (unused s (led_all x) i a)) (pool_blocks p r))))) /\
  free_then n i (c_log x) = N.of_nat (length (filter (unused s (led_all x) i) (pool_blocks p r))) /\
  exists m, evtPool_getNumMin s i = Ok (u8 m) /\
    (forall pre post, c_log x = pre ++ post -> m <= free_then n i pre) /\
    (exists pre post, c_log x = pre ++ post /\ m = free_then n i pre).
Proof. intros c mem0 statics prios dqs pools rs x i p r SO. exact (pool_stats c mem0 statics prios dqs pools rs SO x i p r). Qed.
Print Assumptions C59_figures.

(** Two more events are allocated from the first pool, then one is posted, handled and
    so given back. *)
Definition C59_chs : list choice :=
  K_boot ++ (ChCall (OAe 10 5) :: go 4) ++ (ChCall (OAe 16 6) :: go 4) ++ (ChCall (OPost false 1 1016) :: go 2) ++ go 12.
Example C59_ex : K_reach (K_at C59_chs) /\ let x := K_at C59_chs in let s := c_s x in
  nth_error K_pools 0 = Some (1000, 50, 10) /\ nth_error K_rs 0 = Some 16 /\ pool_blocks (1000, 50, 10) 16 = [1000; 1016; 1032] /\
  map (unused s (led_all x) 0) [1000; 1016; 1032] = [false; true; true] /\
  evtPool_getNumBlock s 0 = Ok 3 /\ evtPool_getNumUsed K_cfg s 0 = Ok 1 /\ evtPool_getNumMin s 0 = Ok 1 /\
  map (free_then 3 0) [firstn 14 (c_log x); c_log x] = [1; 2] /\
  evtPool_getNumBlock s 1 = Ok 2 /\ evtPool_getNumUsed K_cfg s 1 = Ok 0 /\ evtPool_getNumMin s 1 = Ok 2.
Proof. split; [apply K_reachable; vm_compute; reflexivity|]. vm_compute. repeat split. Qed.

(** The figures are bytes although pools can be larger (RKH_CFG_MP_SIZEOF_NBLOCK of 16
    or 32): a pool of 256 blocks, all of them free, reports that it has none. *)
Definition C59_cfg : kcfg := mkKCfg (mkQCfg true 255 (mkRgCfg 4 true)) (mkMpCfg true 8 65536 65536) 3 2 65536 65536.
Definition C59_mem0 : @mem cell := fun a => if (1000 <=? a) && (a <? 5096) then Some CRaw else None.
Definition C59_big : res kst := start C59_cfg C59_mem0 [0] [] [(1000, 4096, 16)].
Theorem C59_figures_of_256_refuted : exists s q, C59_big = Ok s /\ nth_error (k_ep s) 0 = Some q /\
  mp_nblocks q = 256 /\ mp_nfree q = 256 /\ evtPool_getNumBlock s 0 = Ok 0 /\ evtPool_getNumMin s 0 = Ok 0.
Proof.
  destruct C59_big as [s|] eqn:E; [|vm_compute in E; discriminate].
  exists s, (mkMP 1000 16 256 256 256 1000 5080). split; [reflexivity|].
  assert (Hq : match C59_big with Ok s => nth_error (k_ep s) 0 | Fault _ => None end = Some (mkMP 1000 16 256 256 256 1000 5080)) by (vm_compute; reflexivity).
  rewrite E in Hq. unfold evtPool_getNumBlock, evtPool_getNumMin. rewrite (proj2 (rd_ok _ _ _) Hq). repeat split. exact Hq.
Qed.
Print Assumptions C59_figures_of_256_refuted.

(** No more pools can be registered than the system is configured for. *)
Theorem C59_register_limit :
  forall c mem0 statics prios dqs pools rs s sstart ssize esize, sys_ok c mem0 statics prios dqs pools rs ->
  start c mem0 prios dqs pools = Ok s -> length pools = k_maxpool c ->
  fwk_registerEvtPool c s sstart ssize esize = Fault (FAssert 162).
Proof. intros c mem0 statics prios dqs pools rs s a n b SO. exact (register_limit c mem0 statics prios dqs pools rs SO s a n b). Qed.
Print Assumptions C59_register_limit.
(** The system of the examples with room for its two pools only. *)
Definition K2_cfg : kcfg := mkKCfg (mkQCfg true 255 (mkRgCfg 4 true)) (mkMpCfg true 8 65536 256) 2 2 65536 65536.
Example C59_register_ex : sys_ok K2_cfg K_mem0 K_statics K_prios K_dqs K_pools K_rs /\ length K_pools = k_maxpool K2_cfg /\
  is_ok (start K2_cfg K_mem0 K_prios K_dqs K_pools) = true.
Proof.
  split; [|split; vm_compute; reflexivity]. destruct K_ok as [H1 H2 H3 H4 H5 H6 H7 H8 H9 H10 H11].
  constructor; try assumption. cbn. lia.
Qed.
