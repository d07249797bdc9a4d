(** What happens beyond 255 references (C22). *)
From Verif Require Import Base L_Base M_RdyGrp S_RdyGrp L_RdyGrp M_Queue L_Queue M_MemPool S_MemPool L_MemPool M_Kernel S_Kernel
  L_KMem L_KQueue L_Kernel L_KRun L_KBoot L_KProps L_KSeq.
From Coq Require Import Permutation.
Local Open Scope N_scope.

Section W.
Context (c : kcfg) (mem0 : @mem cell) (statics : list (N * N)) (prios : list N)
  (dqs : list (list (option N) * nat)) (pools : list (N * N * N)) (rs : list N).
Context (SO : sys_ok c mem0 statics prios dqs pools rs).
Notation PB := (pool_lists pools rs).
Notation KInv := (KInv c statics PB mem0 rs prios (length dqs)).
Notation reachable := (reachable c mem0 statics prios dqs pools).
Notation OK := (OK c mem0 statics prios dqs pools rs SO).

(** Reserving keeps the invariant, in which the counter is taken modulo 256. *)
Lemma reserves e : forall k s l, KInv s (cnt l) -> live_evt statics s l e ->
  exists s' l', exec_all c s (repeat (OReserve e) k) = Ok s' /\ KInv s' (cnt l') /\ same_queues s s' /\ k_ep s' = k_ep s /\
    holders s' l' e = (holders s l e + k)%nat /\ live_evt statics s' l' e.
Proof.
  induction k as [|k IH]; intros s l HI Hl.
  - exists s, l. cbn. repeat (split; [try assumption; try (repeat split); lia|]). exact Hl.
  - destruct (inc_call c mem0 statics prios dqs pools rs SO s l e HI Hl) as (m' & E & HI').
    assert (Hl' : live_evt statics (set_mem s m') (LRef e :: rem1 (LFresh e) l) e).
    { right. right. unfold holders. rewrite cnt_cons. destruct litem_dec; [lia|congruence]. }
    destruct (IH _ _ HI' Hl') as (s' & l' & E' & HI2 & Hq & Hp & Hc & Hl2).
    exists s', l'. split.
    { cbn [repeat exec_all api exec fwk_reserve]. rewrite E. cbn [bind exec]. exact E'. }
    split; [exact HI2|]. split; [exact Hq|]. split; [exact Hp|]. split; [|exact Hl2].
    rewrite Hc. unfold holders. rewrite cnt_cons, cnt_rem1. change (all_queued (set_mem s m')) with (all_queued s).
    destruct (litem_dec (LRef e) (LRef e)); [|congruence]. destruct (litem_dec (LFresh e) (LRef e)); [discriminate|]. lia.
Qed.

Lemma wrapped s l e i : KInv s (cnt l) -> block_of pools rs i e -> (1 <= holders s l e)%nat ->
  exists sig, hdr_rd (k_mem s) e = Ok (sig, u8 (N.of_nat (holders s l e)), N.of_nat i + 1).
Proof.
  intros HI Hb Hh. apply (inpool_block) in Hb. pose proof (ki_mem _ _ _ _ _ _ _ _ _ HI) as HM.
  destruct (KM_hdr c statics PB mem0 OK _ _ _ _ _ _ e HM) as (_ & H2 & _).
  destruct (H2 i Hb ltac:(rewrite tot_holders; lia)) as [sig E]. exists sig. now rewrite tot_holders in E.
Qed.

Lemma wrap_lost x e i k n : reachable x -> block_of pools rs i e -> live_evt statics (c_s x) (led_all x) e ->
  (holders (c_s x) (led_all x) e + k = 256)%nat ->
  exists s', exec_all c (c_s x) (repeat (OReserve e) k) = Ok s' /\
    exec_all c s' (repeat (OGc e) n) = Ok s' /\ k_ep s' = k_ep (c_s x).
Proof.
  intros H Hb Hl Hk. pose proof (ci_k _ _ _ _ _ _ _ _ (reach_inv _ _ _ _ _ _ _ SO x H)) as HI.
  destruct (reserves e k _ _ HI Hl) as (s' & l' & E & HI' & Hq & Hp & Hh & _). exists s'.
  split; [exact E|]. split; [|exact Hp].
  destruct (wrapped s' l' e i HI' Hb ltac:(lia)) as [sig Eh]. rewrite Hh, Hk in Eh.
  change (u8 (N.of_nat 256)) with 0 in Eh.
  induction n as [|n IH]; [reflexivity|]. cbn [repeat exec_all api fwk_gc exec]. rewrite Eh. cbn [bind].
  change (0 =? 0) with true. cbv iota. cbn [exec]. exact IH.
Qed.

Lemma wrap_early x e i k : reachable x -> block_of pools rs i e -> live_evt statics (c_s x) (led_all x) e ->
  (holders (c_s x) (led_all x) e + k = 257)%nat ->
  exists s1 s2, exec_all c (c_s x) (repeat (OReserve e) k) = Ok s1 /\
    exec (fwk_gc c e) s1 = Ok (s2, [KDead i e; KFree i e], 0) /\ free_block s2 i e /\ same_queues (c_s x) s2.
Proof.
  intros H Hb Hl Hk. pose proof (ci_k _ _ _ _ _ _ _ _ (reach_inv _ _ _ _ _ _ _ SO x H)) as HI.
  destruct (reserves e k _ _ HI Hl) as (s & l & E & HI' & Hq & Hp & Hh & _).
  destruct (wrapped s l e i HI' Hb ltac:(lia)) as [sig Eh]. rewrite Hh, Hk in Eh.
  change (u8 (N.of_nat 257)) with 1 in Eh. apply inpool_block in Hb. pose proof (inpool_lt _ _ _ Hb) as Hlt.
  pose proof (pb_len _ _ _ OK) as HL. pose proof (ki_mem _ _ _ _ _ _ _ _ _ HI') as HM.
  assert (HT : tot s (cnt l) e = 257%nat) by (rewrite tot_holders; lia).
  destruct (KM_blk _ _ _ _ _ _ _ _ _ _ i e HM Hb) as (p & ow & B & HB & Ha & Hp0 & Hv & Hbk).
  assert (Hown : In e ow) by (unfold blk in Hbk; destruct Hbk as [(_ & ? & _)|(? & _)]; [lia|assumption]).
  destruct (mp_put_spec CLink get_link (k_mp c) get_mk_cell p (k_mem s) B ow e Hv Hown) as (p' & m' & Ep & Hv' & _).
  set (s2 := set_pools (set_mem s m') (upd (k_ep s) i p') (k_mgr s) (k_next s)).
  exists s, s2. split; [exact E|]. split; [|split].
  - cbn [fwk_gc exec]. rewrite Eh. cbn [bind]. change (1 =? 0) with false. cbv iota. cbn [exec].
    rewrite Eh. cbn [bind]. change (1 <? 1) with false. cbv iota zeta. replace (u8 (N.of_nat i + 1 + 255)) with (N.of_nat i) by (symmetry; apply u8_idx; lia).
    replace (N.of_nat i <? k_next s) with true
      by (symmetry; apply N.ltb_lt; rewrite (ki_next _ _ _ _ _ _ _ _ _ HI'); lia).
    rewrite rassert_true. cbn [bind]. rewrite Nat2N.id.
    rewrite (proj2 (rd_ok _ _ _) (ki_mgr _ _ _ _ _ _ _ _ _ HI' i Hlt)). cbn [bind exec].
    unfold evtPool_put. destruct (rassert _ 134 true) eqn:Er; [|now rewrite rassert_true in Er].
    cbn [bind]. rewrite (proj2 (rd_ok _ _ _) Hp0). cbn [bind]. rewrite Ep. cbn [bind].
    rewrite wr_lt by (eapply nth_some_lt; eauto). reflexivity.
  - exists p'. cbn [s2 k_ep k_mem set_pools set_mem]. split; [apply nth_upd_eq; eapply nth_some_lt; eauto|].
    destruct (iv_fl _ _ _ _ _ _ Hv') as (fl & Hc & HP & _). apply (chain_free _ _ _ Hc).
    assert (Hin : In e (fl ++ remove N.eq_dec e ow)) by (apply (Permutation_in e (Permutation_sym HP)); exact Ha).
    apply in_app_iff in Hin. destruct Hin as [|Hr]; [assumption|]. now apply remove_In in Hr.
  - destruct Hq as (H1 & H2 & H3 & H4 & H5). repeat split; assumption.
Qed.
End W.
