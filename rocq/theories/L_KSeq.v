(** Proofs: what single calls do in a reachable state, without interrupts. *)
From Verif Require Import Base L_Base M_RdyGrp S_RdyGrp L_RdyGrp M_Queue S_Queue L_Queue
  M_MemPool S_MemPool L_MemPool M_Kernel S_Kernel L_KMem L_KQueue L_Kernel L_KRun L_KBoot L_KProps.
From Coq Require Import Permutation.
Local Open Scope N_scope.

Section S.
Context (c : kcfg) (mem0 : @mem cell) (statics : list (N * N)) (prios : list N)
  (dqs : list (list (option N) * nat)) (pools : list (N * N * N)) (rs : list N).
Context (SO : sys_ok c mem0 statics prios dqs pools rs).
Notation PB := (pool_lists pools rs).
Notation KInv := (KInv c statics PB mem0 rs prios (length dqs)).
Notation CInv := (CInv c statics PB mem0 rs prios (length dqs)).
Notation reachable := (reachable c mem0 statics prios dqs pools).
Notation OK := (OK c mem0 statics prios dqs pools rs SO).
Notation Hmax := (Hmax c mem0 statics prios dqs pools rs SO).

Lemma Hasrt : q_asrt (k_qc c) = true.
Proof. apply (so_asrt _ _ _ _ _ _ _ SO). Qed.

(** A live event, seen as held by the caller. *)
Lemma live_split s l e : live_evt statics s l e ->
  exists led l' lo, (forall y, is_right y = true -> cnt (led ++ l') y = cnt l y) /\
    (forall y, lo y <= cnt l' y)%nat /\ evs c s lo led /\ holds statics led e /\
    (forall y, In y led -> y = LFresh e \/ y = LRef e \/ y = LLive e).
Proof.
  assert (Hrem : forall y, In y l -> forall z, cnt ([y] ++ rem1 y l) z = cnt l z).
  { intros y Hy z. apply cnt_in in Hy. cbn [app]. rewrite cnt_cons, cnt_rem1.
    destruct litem_dec as [<-|]; lia. }
  intros [H|[H|H]].
  - exists [], l, (fun _ => 0%nat). split; [auto|]. split; [lia|]. split; [intros y []|].
    split; [left; now apply is_static_stat|intros y []].
  - exists [LFresh e], (rem1 (LFresh e) l), (fun _ => 0%nat). split; [auto|]. split; [lia|].
    split; [intros y [<-|[]]; exact I|]. split; [right; left; now left|]. intros y [<-|[]]. auto.
  - unfold holders in H. destruct (Nat.eq_dec (cnt l (LRef e)) 0) as [E|E].
    + exists [LLive e], l, (fun _ => 0%nat). split.
      { intros y Hy. cbn [app]. rewrite cnt_cons. destruct litem_dec; [subst y; discriminate|reflexivity]. }
      split; [lia|]. split; [|split; [right; right; right; now left|intros y [<-|[]]; auto]].
      intros y [<-|[]]. left. apply refs_in. unfold refs. lia.
    + assert (Hi : In (LRef e) l) by (apply cnt_in; lia).
      exists [LRef e], (rem1 (LRef e) l), (fun _ => 0%nat). split; [auto|]. split; [lia|].
      split; [intros y [<-|[]]; exact I|]. split; [right; right; left; now left|]. intros y [<-|[]]. auto.
Qed.

Lemma KInv_cnt s led l' L : (forall y, is_right y = true -> cnt (led ++ l') y = L y) -> KInv s L ->
  KInv s (Lc led (cnt l')).
Proof. intros H HI. eapply KInv_ext; [|exact HI]. intros y Hy. rewrite <- H by exact Hy. unfold Lc. now rewrite cnt_app. Qed.
Lemma KInv_cnt' s led l' L : (forall y, is_right y = true -> L y = cnt (led ++ l') y) -> KInv s (Lc led (cnt l')) ->
  KInv s L.
Proof. intros H HI. eapply KInv_ext; [|exact HI]. intros y Hy. rewrite H by exact Hy. unfold Lc. now rewrite cnt_app. Qed.

(** *** Post *)
Definition after_post (e : N) (l : list litem) : list litem := rem1 (LFresh e) l.

Lemma post_call lifo s l o a e : KInv s (cnt l) -> live_evt statics s l e ->
  nth_error (k_ao s) o = Some a -> registered s o = true ->
  (length (ao_view s o) = q_nelems (ao_q a) -> post_sec c lifo s o e = Fault (FAssert (if lifo then 265 else 223)%nat)) /\
  ((length (ao_view s o) < q_nelems (ao_q a))%nat ->
   exists s', post_sec c lifo s o e = Ok (s', [KPut lifo o e]) /\
    KInv s' (cnt (after_post e l)) /\
    (forall o', ao_view s' o' = if Nat.eqb o' o then (if lifo then e :: ao_view s o else ao_view s o ++ [e]) else ao_view s o') /\
    (forall d, dq_view s' d = dq_view s d) /\
    k_sp s' = k_sp s /\ k_dq s' = k_dq s /\ k_ch s' = k_ch s /\ k_ep s' = k_ep s /\
    (forall o' a', nth_error (k_ao s) o' = Some a' -> exists a'', nth_error (k_ao s') o' = Some a'' /\
        q_nelems (ao_q a'') = q_nelems (ao_q a') /\ ao_prio a'' = ao_prio a') /\
    (forall x, holders s' (after_post e l) x = (holders s l x + if N.eq_dec e x then 1 else 0)%nat) /\
    live_evt statics s' (after_post e l) e /\
    inc_ref s e = Ok (set_mem s (k_mem s'))).
Proof.
  intros HI Hl Ho Hr. destruct (live_split s l e Hl) as (led & l' & lo & Hc & Hlo & He & Hh & Hled).
  pose proof (KInv_cnt _ _ _ _ Hc HI) as HI1.
  apply registered_reg in Hr. destruct Hr as (a1 & Ho1 & Hreg). assert (a1 = a) by congruence. subst a1.
  assert (Hvl : ao_view s o = q_view (ao_q a)) by (unfold ao_view; now rewrite Ho). rewrite Hvl.
  split.
  - intros Hfull. unfold post_sec.
    destruct (inc_led c statics PB mem0 rs prios (length dqs) OK Hmax Hasrt s _ lo led e Hlo HI1 He Hh) as (m' & E & _ & _).
    rewrite E. cbn [bind k_ao k_rg set_mem]. rewrite (proj2 (rd_ok _ _ _) Ho). cbn [bind]. rewrite put_unfold.
    destruct (KQ_post c prios (length dqs) Hmax Hasrt _ _ _ _ _ lifo o a e (ki_q _ _ _ _ _ _ _ _ _ HI) Ho Hreg)
      as [(_ & Ep)|(Hlen & _)]; [|lia]. rewrite Ep. reflexivity.
  - intros Hroom.
    destruct (inc_led c statics PB mem0 rs prios (length dqs) OK Hmax Hasrt s _ lo led e Hlo HI1 He Hh) as (m' & E & _ & _).
    destruct (post_led c statics PB mem0 rs prios (length dqs) OK Hmax Hasrt lifo s _ lo led o a e Hlo HI1 He Hh Ho Hreg)
      as [Ef|(s' & q' & E' & HI' & He' & Hg & Eao & Hv & Edq & Ech & Esp & Hef & _)].
    { exfalso. unfold post_sec in Ef. rewrite E in Ef. cbn [bind k_ao k_rg set_mem] in Ef.
      rewrite (proj2 (rd_ok _ _ _) Ho) in Ef. cbn [bind] in Ef. rewrite put_unfold in Ef.
      destruct (KQ_post c prios (length dqs) Hmax Hasrt _ _ _ _ _ lifo o a e (ki_q _ _ _ _ _ _ _ _ _ HI) Ho Hreg)
        as [(Hlen & _)|(_ & q2 & g2 & Ep & _)]; [lia|]. rewrite Ep in Ef. cbn [bind] in Ef.
      rewrite wr_lt in Ef by (eapply nth_some_lt; eauto). discriminate. }
    assert (Hne : q_nelems q' = q_nelems (ao_q a) /\ k_ep s' = k_ep s /\ k_mem s' = m').
    { unfold post_sec in E'. rewrite E in E'. cbn [bind k_ao k_rg set_mem] in E'.
      rewrite (proj2 (rd_ok _ _ _) Ho) in E'. cbn [bind] in E'. rewrite put_unfold in E'.
      destruct (KQ_post c prios (length dqs) Hmax Hasrt _ _ _ _ _ lifo o a e (ki_q _ _ _ _ _ _ _ _ _ HI) Ho Hreg)
        as [(Hlen & _)|(_ & q2 & g2 & Ep & _ & Hn2 & _)]; [lia|]. rewrite Ep in E'. cbn [bind] in E'.
      rewrite wr_lt in E' by (eapply nth_some_lt; eauto). cbn [bind] in E'. injection E' as E'. subst s'.
      cbn [k_ao k_ep k_mem set_rg set_ao set_mem] in Eao |- *. split; [|split; reflexivity].
      assert (Hq : nth_error (upd (k_ao s) o (mkAo (ao_prio a) q2)) o = nth_error (upd (k_ao s) o (mkAo (ao_prio a) q')) o) by congruence.
      rewrite !nth_upd_eq in Hq by (eapply nth_some_lt; eauto). injection Hq as ->. exact Hn2. }
    destruct Hne as (Hne & Eep & Emem).
    assert (Hrefs : forall x, refs s' x = (refs s x + if N.eq_dec e x then 1 else 0)%nat).
    { intros x. pose proof (refs_ao _ s o a q' x Ho eq_refl) as H1. rewrite Hv, put_view_count in H1.
      replace (refs s' x) with (refs (set_ao s (upd (k_ao s) o (mkAo (ao_prio a) q'))) x); [lia|].
      unfold refs, all_queued. rewrite Eao, Edq. reflexivity. }
    assert (Hcnt : forall y, is_right y = true -> cnt (after_post e l) y = cnt (led_step led (KPut lifo o e) ++ l') y).
    { intros y Hy. unfold after_post. cbn [led_step app]. rewrite cnt_cons, cnt_app, !cnt_rem1, <- Hc by exact Hy.
      rewrite cnt_app. destruct (litem_dec (LLive e) y) as [<-|]; [discriminate|].
      destruct (litem_dec (LFresh e) y) as [<-|]; [|lia].
      (* a live event is fresh only in the caller's hands *)
      pose proof (holds_fresh c statics PB mem0 rs prios (length dqs) OK Hmax Hasrt s _ lo led e Hlo HI1 He Hh) as HF.
      unfold Lc in HF. rewrite cnt_rem1 in HF. destruct litem_dec in HF; [|congruence]. lia. }
    exists s'. split; [exact E'|]. split; [eapply KInv_cnt'; [exact Hcnt|exact HI']|]. split.
    { intros o'. unfold ao_view. rewrite Eao. destruct (Nat.eqb_spec o' o) as [->|Hn].
      - rewrite nth_upd_eq by (eapply nth_some_lt; eauto). exact Hv.
      - now rewrite nth_upd_ne by auto. }
    split; [intros d; unfold dq_view; now rewrite Edq|].
    do 4 (split; [assumption|]). split.
    { intros o' a' Ho'. rewrite Eao. destruct (Nat.eq_dec o o') as [<-|Hn].
      - assert (a' = a) by congruence. subst a'. eexists. split; [apply nth_upd_eq; eapply nth_some_lt; eauto|]. split; [exact Hne|reflexivity].
      - exists a'. rewrite nth_upd_ne by auto. auto. }
    assert (Hhold : forall x, holders s' (after_post e l) x = (holders s l x + (if N.eq_dec e x then 1 else 0))%nat).
    { intros x. unfold holders. change (count_occ N.eq_dec (all_queued s') x) with (refs s' x).
      change (count_occ N.eq_dec (all_queued s) x) with (refs s x). rewrite Hrefs. unfold after_post.
      rewrite cnt_rem1. destruct litem_dec; [congruence|]. lia. }
    split; [exact Hhold|]. split; [|rewrite Emem; exact E]. right; right. rewrite Hhold. destruct (N.eq_dec e e); [lia|congruence].
Qed.

(** *** Garbage collection *)
Lemma u8_idx i : (i < 255)%nat -> u8 (N.of_nat i + 1 + 255) = N.of_nat i.
Proof.
  intros H. unfold u8. replace (N.of_nat i + 1 + 255) with (N.of_nat i + 1 * 256) by lia.
  rewrite N.mod_add by lia. apply N.mod_small. lia.
Qed.

Definition same_queues (s s' : kst) : Prop :=
  k_ao s' = k_ao s /\ k_dq s' = k_dq s /\ k_rg s' = k_rg s /\ k_sp s' = k_sp s /\ k_ch s' = k_ch s.
Lemma same_views s s' : same_queues s s' ->
  (forall o, ao_view s' o = ao_view s o) /\ (forall d, dq_view s' d = dq_view s d) /\ all_queued s' = all_queued s.
Proof. intros (E1 & E2 & _). unfold ao_view, dq_view, all_queued. rewrite E1, E2. auto. Qed.

Lemma gc_static s e : (exists L, KInv s L) -> is_static statics e = true -> exists sig, hdr_rd (k_mem s) e = Ok (sig, 0, 0).
Proof.
  intros [L HI] H. apply is_static_stat in H.
  exact (proj1 (KM_hdr c statics PB mem0 OK _ _ _ _ _ _ e (ki_mem _ _ _ _ _ _ _ _ _ HI)) H).
Qed.
Lemma gc_fresh s l e : KInv s (cnt l) -> In (LFresh e) l -> exists i sig, hdr_rd (k_mem s) e = Ok (sig, 0, N.of_nat i + 1).
Proof.
  intros HI H. apply cnt_in in H.
  destruct (proj2 (proj2 (KM_hdr c statics PB mem0 OK _ _ _ _ _ _ e (ki_mem _ _ _ _ _ _ _ _ _ HI))) H) as (i & sig & _ & E). eauto.
Qed.

Lemma gc_last s l e i : KInv s (cnt l) -> In (LRef e) l -> block_of pools rs i e -> holders s l e = 1%nat ->
  (exists sig, hdr_rd (k_mem s) e = Ok (sig, 1, N.of_nat i + 1)) /\
  rd (k_mgr s) i = Ok (Some i) /\ N.of_nat i < k_next s /\ (i < 255)%nat /\
  KInv s (cnt (LDead i e :: rem1 (LRef e) l)) /\
  exists p p' m', nth_error (k_ep s) i = Some p /\
    evtPool_put c s (Some i) e = Ok (set_pools (set_mem s m') (upd (k_ep s) i p') (k_mgr s) (k_next s)) /\
    mp_nfree p' = mp_nfree p + 1 /\ mp_nblocks p' = mp_nblocks p /\ mp_bsize p' = mp_bsize p /\
    KInv (set_pools (set_mem s m') (upd (k_ep s) i p') (k_mgr s) (k_next s)) (cnt (rem1 (LRef e) l)).
Proof.
  intros HI Hi Hb Hh. apply inpool_block in Hb. pose proof (inpool_lt _ _ _ Hb) as Hlt.
  pose proof (pb_len _ _ _ OK) as HL. pose proof (ki_mem _ _ _ _ _ _ _ _ _ HI) as HM.
  pose proof Hi as Hi'. apply cnt_in in Hi'.
  assert (HT : tot s (cnt l) e = 1%nat) by (rewrite tot_holders; exact Hh).
  split.
  { destruct (KM_hdr c statics PB mem0 OK _ _ _ _ _ _ e HM) as (_ & H2 & _).
    destruct (H2 i Hb ltac:(lia)) as [sig E]. exists sig. rewrite HT in E. exact E. }
  split; [apply rd_ok; now apply (ki_mgr _ _ _ _ _ _ _ _ _ HI)|].
  split; [rewrite (ki_next _ _ _ _ _ _ _ _ _ HI); lia|]. split; [lia|].
  set (l1 := LDead i e :: rem1 (LRef e) l).
  assert (HI1 : KInv s (cnt l1)).
  { destruct HI. constructor; try assumption. eapply KM_relabel; [exact OK|exact HM|exact Hb|cbv beta; lia| | |].
    - intros x Hx. unfold tot, l1. rewrite !cnt_cons, !cnt_rem1. repeat destruct litem_dec; try congruence; lia.
    - intros j x Hx. unfold l1. rewrite !cnt_cons, !cnt_rem1.
      split; repeat destruct litem_dec; try congruence; try lia.
      match goal with E : _ = _ |- _ => inversion E; subst; exfalso; tauto end.
    - destruct (KM_live _ _ _ _ _ _ _ _ _ _ i e HM Hb ltac:(lia)) as ((HW & HF & HD) & _).
      cbv beta in HW, HF, HD. unfold tot, l1 in *. rewrite !cnt_cons, !cnt_rem1.
      repeat destruct litem_dec; try congruence; lia. }
  split; [exact HI1|].
  destruct (KI_pool c statics PB mem0 rs prios (length dqs) Hmax Hasrt s _ i HI Hlt) as [p Hp].
  assert (HD : (0 < cnt l1 (LDead i e))%nat) by (unfold l1; rewrite cnt_cons; destruct litem_dec; [lia|congruence]).
  assert (HD1 : cnt l1 (LDead i e) = 1%nat).
  { destruct (KM_blk _ _ _ _ _ _ _ _ _ _ i e (ki_mem _ _ _ _ _ _ _ _ _ HI1) Hb) as (p0 & ow & B & HB & Ha & Hp0 & Hv & Hbk).
    unfold blk in Hbk. cbv beta in Hbk. destruct Hbk as [?|(_ & [?|[(? & _)|[?|(? & _)]]])]; lia. }
  destruct (KM_put c statics PB mem0 OK s _ _ _ _ i p e (ki_mem _ _ _ _ _ _ _ _ _ HI1) HD Hp)
    as (p' & m' & E & Hnf & Hbs & Hnb & _ & HK).
  exists p, p', m'. split; [exact Hp|]. split.
  { unfold evtPool_put. cbn [rassert orb bind]. rewrite (proj2 (rd_ok _ _ _) Hp). cbn [bind]. rewrite E. cbn [bind].
    rewrite wr_lt by (eapply nth_some_lt; eauto). reflexivity. }
  split; [exact Hnf|]. split; [exact Hnb|]. split; [exact Hbs|].
  constructor; try apply HI; cbn [k_mem k_ep set_pools set_mem].
  - eapply bs_upd; [exact HI|exact Hp|exact Hbs].
  - eapply KM_ext; [apply (HK (fun j x => cnt (rem1 (LRef e) l) (LDead j x)))| | | |].
    + intros j x Hjx. unfold l1. rewrite cnt_cons. destruct litem_dec as [Ed|]; [inversion Ed; subst; tauto|reflexivity].
    + unfold l1 in HD1. rewrite cnt_cons in HD1. destruct litem_dec; [lia|congruence].
    + intros x. unfold tot, l1. rewrite cnt_cons. destruct litem_dec; [congruence|].
      match goal with |- (refs ?s1 x + _ = _)%nat => change (refs s1 x) with (refs s x) end. lia.
    + intros j x. unfold l1. rewrite cnt_cons. destruct litem_dec; [congruence|reflexivity].
    + intros x. unfold l1. rewrite cnt_cons. destruct litem_dec; [congruence|reflexivity].
    + reflexivity.
Qed.

Lemma gc_more s l e i : KInv s (cnt l) -> In (LRef e) l -> block_of pools rs i e -> (2 <= holders s l e <= 255)%nat ->
  exists sig m', hdr_rd (k_mem s) e = Ok (sig, N.of_nat (holders s l e), N.of_nat i + 1) /\
    hdr_wr (k_mem s) e sig (N.of_nat (holders s l e) - 1) (N.of_nat i + 1) = Ok m' /\
    (forall a, m' a = if a =? e then Some (CEvt sig (N.of_nat (holders s l e) - 1) (N.of_nat i + 1)) else k_mem s a) /\
    KInv (set_mem s m') (cnt (rem1 (LRef e) l)).
Proof.
  intros HI Hi Hb Hh. apply inpool_block in Hb. pose proof (ki_mem _ _ _ _ _ _ _ _ _ HI) as HM.
  apply cnt_in in Hi.
  destruct (KM_dec c statics PB mem0 OK _ _ _ _ _ _ e i HM Hb) as (sig & m' & Eh & Ew & _ & HK).
  { rewrite tot_holders. exact Hh. }
  rewrite tot_holders in Eh, Ew. exists sig, m'. split; [exact Eh|]. split; [exact Ew|]. split.
  { unfold hdr_wr in Ew. destruct (e =? 0); [discriminate|]. unfold mem_wr in Ew.
    destruct (k_mem s e); [|discriminate]. injection Ew as <-. reflexivity. }
  constructor; try apply HI. cbn [k_mem k_ep set_mem].
  eapply KM_ext; [apply (HK (tot (set_mem s m') (cnt (rem1 (LRef e) l))))| | | |].
  - intros x Hx. unfold tot. change (refs (set_mem s m') x) with (refs s x). rewrite cnt_rem1.
    destruct litem_dec; try congruence; lia.
  - unfold tot. change (refs (set_mem s m') e) with (refs s e). rewrite cnt_rem1. destruct litem_dec; try congruence; lia.
  - reflexivity.
  - intros j x. rewrite cnt_rem1. destruct litem_dec; try congruence; lia.
  - intros x. rewrite cnt_rem1. destruct litem_dec; try congruence; lia.
  - intros j x. rewrite cnt_rem1. destruct litem_dec; try congruence; lia.
Qed.

Lemma exec_gc_static s e k : (exists L, KInv s L) -> is_static statics e = true ->
  exec (pseq (fwk_gc c e) k) s = exec (k 0) s.
Proof.
  intros HI H. destruct (gc_static s e HI H) as [sig E]. cbn [fwk_gc pseq exec]. rewrite E. cbn [bind].
  change (0 =? 0) with true. cbv iota. cbn [pseq]. destruct (exec (k 0) s) as [[[? ?] ?]|]; reflexivity.
Qed.
Lemma exec_gc_last s l e i k : KInv s (cnt l) -> In (LRef e) l -> block_of pools rs i e -> holders s l e = 1%nat ->
  exists s' p p', nth_error (k_ep s) i = Some p /\ k_ep s' = upd (k_ep s) i p' /\
    mp_nfree p' = mp_nfree p + 1 /\ mp_nblocks p' = mp_nblocks p /\ mp_bsize p' = mp_bsize p /\
    KInv s' (cnt (rem1 (LRef e) l)) /\ same_queues s s' /\
    exec (pseq (fwk_gc c e) k) s =
      match exec (k 0) s' with Ok (s'', l', v) => Ok (s'', [KDead i e; KFree i e] ++ l', v) | Fault f => Fault f end.
Proof.
  intros HI Hi Hb Hh.
  destruct (gc_last s l e i HI Hi Hb Hh) as ((sig & Eh) & Em & Hlt & Hi255 & HI1 & p & p' & m' & Hp & Ep & H1 & H2 & H3 & HI2).
  exists (set_pools (set_mem s m') (upd (k_ep s) i p') (k_mgr s) (k_next s)), p, p'.
  split; [exact Hp|]. split; [reflexivity|]. do 3 (split; [assumption|]). split; [exact HI2|].
  split; [repeat split|].
  cbn [fwk_gc pseq exec]. rewrite Eh. cbn [bind]. change (1 =? 0) with false. cbv iota. cbn [pseq exec].
  rewrite Eh. cbn [bind]. change (1 <? 1) with false. cbv iota zeta. rewrite u8_idx by exact Hi255.
  replace (N.of_nat i <? k_next s) with true by (symmetry; now apply N.ltb_lt).
  rewrite rassert_true. cbn [bind]. rewrite Nat2N.id, Em. cbn [bind pseq exec]. rewrite Ep. cbn [bind pseq].
  destruct (exec (k 0) _) as [[[? ?] ?]|]; reflexivity.
Qed.
Lemma exec_gc_more s l e i k : KInv s (cnt l) -> In (LRef e) l -> block_of pools rs i e -> (2 <= holders s l e <= 255)%nat ->
  exists s' sig, k_mem s e = Some (CEvt sig (N.of_nat (holders s l e)) (N.of_nat i + 1)) /\
    k_mem s' e = Some (CEvt sig (N.of_nat (holders s l e) - 1) (N.of_nat i + 1)) /\
    (forall a, a <> e -> k_mem s' a = k_mem s a) /\ k_ep s' = k_ep s /\
    KInv s' (cnt (rem1 (LRef e) l)) /\ same_queues s s' /\
    exec (pseq (fwk_gc c e) k) s =
      match exec (k 0) s' with Ok (s'', l', v) => Ok (s'', [KDec e] ++ l', v) | Fault f => Fault f end.
Proof.
  intros HI Hi Hb Hh. destruct (gc_more s l e i HI Hi Hb Hh) as (sig & m' & Eh & Ew & Hm & HI').
  exists (set_mem s m'), sig.
  split.
  { unfold hdr_rd in Eh. destruct (e =? 0); [discriminate|]. destruct (k_mem s e) as [[]|]; try discriminate.
    now injection Eh as -> -> ->. }
  cbn [k_mem set_mem]. split; [rewrite Hm, N.eqb_refl; reflexivity|].
  split; [intros a Ha; rewrite Hm; destruct (N.eqb_spec a e); congruence|]. split; [reflexivity|].
  split; [exact HI'|]. split; [repeat split|].
  cbn [fwk_gc pseq exec]. rewrite Eh. cbn [bind].
  destruct (N.eqb_spec (N.of_nat (holders s l e)) 0) as [|_]; [lia|]. cbn [pseq exec]. rewrite Eh. cbn [bind].
  replace (1 <? N.of_nat (holders s l e)) with true by (symmetry; apply N.ltb_lt; lia). cbv iota. rewrite Ew. cbn [bind pseq].
  destruct (exec (k 0) _) as [[[? ?] ?]|]; reflexivity.
Qed.
Lemma exec_pseq_ret : forall p s, exec (pseq p Ret) s = exec p s.
Proof.
  fix IH 1. intros [v|f|u p] s; cbn [pseq exec]; [reflexivity| |apply IH].
  destruct (f s) as [[[s1 l1] p1]|]; [|reflexivity]. now rewrite (IH p1).
Qed.

Lemma gc_effect x e i : reachable x -> In (LRef e) (led_all x) -> block_of pools rs i e ->
  let s := c_s x in let l := led_all x in
  (holders s l e = 1%nat ->
     exists s' p p', exec (fwk_gc c e) s = Ok (s', [KDead i e; KFree i e], 0) /\
       nth_error (k_ep s) i = Some p /\ k_ep s' = upd (k_ep s) i p' /\
       mp_nfree p' = mp_nfree p + 1 /\ mp_nblocks p' = mp_nblocks p /\ mp_bsize p' = mp_bsize p /\
       free_block s' i e /\ same_queues s s') /\
  ((1 < holders s l e)%nat ->
     exists s' sig, exec (fwk_gc c e) s = Ok (s', [KDec e], 0) /\
       k_mem s e = Some (CEvt sig (N.of_nat (holders s l e)) (N.of_nat i + 1)) /\
       k_mem s' e = Some (CEvt sig (N.of_nat (holders s l e) - 1) (N.of_nat i + 1)) /\
       (forall a, a <> e -> k_mem s' a = k_mem s a) /\ k_ep s' = k_ep s /\ same_queues s s').
Proof.
  intros H Hi Hb s l. pose proof (reach_inv _ _ _ _ _ _ _ SO x H) as HC. pose proof (ci_k _ _ _ _ _ _ _ _ HC) as HI.
  split.
  - intros Hh. destruct (exec_gc_last s l e i Ret HI Hi Hb Hh) as (s' & p & p' & Hp & Ep & H1 & H2 & H3 & HI' & Hs & E).
    rewrite exec_pseq_ret in E. cbn [exec] in E. exists s', p, p'. split; [exact E|]. do 5 (split; [assumption|]).
    split; [|exact Hs]. eapply unused_free; [exact HI'|exact Hb|].
    assert (Hin : inpool PB i e) by now apply inpool_block.
    destruct (KM_live _ _ _ _ _ _ _ _ _ _ i e (ki_mem _ _ _ _ _ _ _ _ _ HI) Hin) as ((HW & HF & HD) & _).
    { rewrite tot_holders. fold s l. lia. }
    cbv beta in HW, HF, HD. fold l in HW, HF, HD. apply cnt_in in Hi. fold l in Hi.
    assert (Hno : forall y, y <> LRef e -> cnt l y = 0%nat -> negb (has (rem1 (LRef e) l) y) = true).
    { intros y Hy E0. apply negb_true_iff. destruct (has (rem1 (LRef e) l) y) eqn:Eh; [|reflexivity].
      apply has_in, in_rem1, cnt_in in Eh. lia. }
    unfold unused. rewrite !Hno by (assumption || discriminate).
    rewrite !andb_true_r. apply Nat.eqb_eq. unfold holders in *. destruct (same_views s s' Hs) as (_ & _ & Eq). rewrite Eq.
    rewrite cnt_rem1. destruct litem_dec; [lia|congruence].
  - intros Hh. pose proof (ci_b _ _ _ _ _ _ _ _ HC e) as Hle. rewrite tot_holders in Hle.
    assert (~ stat statics e) by (eapply (pb_stat _ _ _ OK); apply inpool_block; exact Hb).
    destruct (exec_gc_more s l e i Ret HI Hi Hb) as (s' & sig & H1 & H2 & H3 & H4 & HI' & Hs & E).
    { split; [exact Hh|auto]. }
    rewrite exec_pseq_ret in E. cbn [exec] in E. exists s', sig. auto 10.
Qed.
Lemma gc_nothing x e : reachable x -> is_static statics e = true \/ In (LFresh e) (led_all x) ->
  exec (fwk_gc c e) (c_s x) = Ok (c_s x, [], 0).
Proof.
  intros H Hc. pose proof (reach_inv _ _ _ _ _ _ _ SO x H) as HC. pose proof (ci_k _ _ _ _ _ _ _ _ HC) as HI.
  assert (exists sig p, hdr_rd (k_mem (c_s x)) e = Ok (sig, 0, p)) as (sig & p & E).
  { destruct Hc as [Hc|Hc].
    - destruct (gc_static (c_s x) e ltac:(eauto) Hc) as [sig E]. eauto.
    - destruct (gc_fresh _ _ e HI Hc) as (i & sig & E). eauto. }
  cbn [fwk_gc exec]. rewrite E. reflexivity.
Qed.

(** *** Allocation *)
Lemma ae_find_first s L size : KInv s L -> (forall r, In r rs -> r < 256) ->
  forall k i, (i + k = length PB)%nat ->
  exists j, ae_find c k s i size = Ok j /\ (i <= j <= length PB)%nat /\
    (forall m r, (i <= m < j)%nat -> nth_error rs m = Some r -> r < size) /\
    (forall r, nth_error rs j = Some r -> size <= r).
Proof.
  intros HI Hrs. induction k as [|k IH]; intros i Hk; cbn [ae_find].
  - exists i. split; [reflexivity|]. split; [lia|]. split; [intros; lia|].
    intros r Hr. apply nth_some_lt in Hr. rewrite (so_len _ _ _ _ _ _ _ SO) in Hr.
    pose proof (PB_len c mem0 statics prios dqs pools rs SO). lia.
  - rewrite (proj2 (rd_ok _ _ _) (ki_mgr _ _ _ _ _ _ _ _ _ HI i ltac:(lia))). cbn [bind].
    unfold evtPool_getBlockSize. cbn [rassert orb bind].
    destruct (KI_pool c statics PB mem0 rs prios (length dqs) Hmax Hasrt s _ i HI ltac:(lia)) as [p Hp].
    rewrite (proj2 (rd_ok _ _ _) Hp). cbn [bind].
    pose proof (ki_bs _ _ _ _ _ _ _ _ _ HI i p ltac:(lia) Hp) as Hbs.
    rewrite u8_small by (apply Hrs; eapply nth_error_In; eauto).
    destruct (N.ltb_spec (mp_bsize p) size) as [Hlt|Hge].
    + destruct (IH (S i) ltac:(lia)) as (j & E & Hj & H1 & H2). exists j. split; [exact E|]. split; [lia|].
      split; [|exact H2]. intros m r Hm Hr. destruct (Nat.eq_dec m i) as [->|]; [|apply (H1 m); [lia|exact Hr]].
      rewrite Hbs in Hr. injection Hr as <-. exact Hlt.
    + exists i. split; [reflexivity|]. split; [lia|]. split; [intros; lia|].
      intros r Hr. rewrite Hbs in Hr. injection Hr as <-. exact Hge.
Qed.

Lemma ae_effect x size sig : reachable x -> (forall r, In r rs -> r < 256) -> size < k_es_mod c ->
  let s := c_s x in let l := led_all x in
  ((forall r, In r rs -> r < size) -> exec (fwk_ae c size sig) s = Fault (FAssert 142)) /\
  (forall i r q, nth_error rs i = Some r -> size <= r ->
     (forall j r', (j < i)%nat -> nth_error rs j = Some r' -> r' < size) -> nth_error (k_ep s) i = Some q ->
     (mp_nfree q = 0 -> exec (fwk_ae c size sig) s = Fault (FAssert 144)) /\
     (mp_nfree q <> 0 -> exists s' q' b, exec (fwk_ae c size sig) s = Ok (s', [KAlloc i b; KStamp i b], b) /\
        block_of pools rs i b /\ free_block s i b /\ ~ live_evt statics s l b /\
        (forall a, k_mem s' a = if a =? b then Some (CEvt (sig mod k_sig_mod c) 0 (N.of_nat i + 1)) else k_mem s a) /\
        k_ep s' = upd (k_ep s) i q' /\ mp_nfree q' = mp_nfree q - 1 /\ same_queues s s')).
Proof.
  intros H Hrs Hsz s l. pose proof (reach_inv _ _ _ _ _ _ _ SO x H) as HC. pose proof (ci_k _ _ _ _ _ _ _ _ HC) as HI.
  fold s l in HI. pose proof (PB_len c mem0 statics prios dqs pools rs SO) as HPB.
  pose proof (so_len _ _ _ _ _ _ _ SO) as HRS. pose proof (pb_len _ _ _ OK) as HL255.
  destruct (ae_find_first s _ size HI Hrs (length PB) 0 ltac:(lia)) as (j & E & Hj & H1 & H2).
  assert (E0 : exec (fwk_ae c size sig) s =
    match (do! rassert (q_asrt (k_qc c)) 142 (N.of_nat j <? k_next s); rd (k_mgr s) j) with
    | Ok ep => exec (Atom (fun s =>
      do (s, evt) <- evtPool_get c s ep;
      do! rassert (q_asrt (k_qc c)) 144 (negb (evt =? 0));
      Ok (s, match ep with Some j => [KAlloc j evt] | None => [] end, Atom (fun s =>
        do m <- hdr_wr (k_mem s) evt (sig mod k_sig_mod c) 0 (u8 (N.of_nat j + 1));
        Ok (set_mem s m, match ep with Some j => [KStamp j evt] | None => [] end, Ret evt))))) s
    | Fault f => Fault f end).
  { unfold fwk_ae. cbn zeta. rewrite N.mod_small by exact Hsz. cbn [exec].
    rewrite (ki_next _ _ _ _ _ _ _ _ _ HI), Nat2N.id, E. cbn [bind].
    destruct (rassert _ _ _) as [[]|]; cbn [bind]; [|reflexivity].
    destruct (rd (k_mgr s) j) as [ep|]; cbn [bind]; [|reflexivity].
    cbn [exec]. destruct (evtPool_get c s ep) as [[? ?]|]; cbn [bind]; [|reflexivity].
    destruct (rassert _ _ _) as [[]|]; cbn [bind exec]; [|reflexivity].
    destruct (hdr_wr _ _ _ _ _) as [m|]; reflexivity. }
  rewrite E0. rewrite (ki_next _ _ _ _ _ _ _ _ _ HI). split.
  - intros Hall. assert (j = length PB).
    { destruct (Nat.eq_dec j (length PB)) as [|Hne]; [assumption|exfalso].
      destruct (nth_error rs j) as [r|] eqn:Er; [|apply nth_error_None in Er; lia].
      specialize (H2 r eq_refl). specialize (Hall r ltac:(eapply nth_error_In; eauto)). lia. }
    subst j. rewrite N.ltb_irrefl. unfold rassert. rewrite Hasrt. reflexivity.
  - intros i r q Hr Hle Hfirst Hq. assert (j = i).
    { destruct (Nat.lt_trichotomy j i) as [Hlt|[Heq|Hgt]]; [exfalso|exact Heq|exfalso].
      - destruct (nth_error rs j) as [r'|] eqn:Er; [|apply nth_error_None in Er; apply nth_some_lt in Hr; lia].
        specialize (H2 r' eq_refl). specialize (Hfirst j r' Hlt Er). lia.
      - specialize (H1 i r ltac:(lia) Hr). lia. }
    subst j. pose proof (nth_some_lt _ _ _ Hr) as Hlt.
    replace (N.of_nat i <? N.of_nat (length PB)) with true by (symmetry; apply N.ltb_lt; lia).
    rewrite rassert_true. cbn [bind]. rewrite (proj2 (rd_ok _ _ _) (ki_mgr _ _ _ _ _ _ _ _ _ HI i ltac:(lia))). cbn [exec].
    unfold evtPool_get. cbn [rassert orb bind]. rewrite (proj2 (rd_ok _ _ _) Hq). cbn [bind].
    destruct (KM_alloc c statics PB mem0 s _ _ _ _ i q (ki_mem _ _ _ _ _ _ _ _ _ HI) ltac:(lia) Hq)
      as [(B & ow & _ & Hv & How & Eg)|(q' & b & Eg & Hb0 & Hin & Hz & Hbs & Hnf & _ & HK)]; rewrite Eg; cbn [bind].
    + rewrite wr_lt by (eapply nth_some_lt; eauto). cbn [bind]. unfold rassert. rewrite Hasrt. cbn [N.eqb negb orb bind exec].
      split; [reflexivity|]. intros Hn. exfalso. apply Hn. pose proof (mp_inv_count _ _ _ _ _ _ Hv) as Hc.
      rewrite (iv_nb _ _ _ _ _ _ Hv) in Hc. lia.
    + rewrite wr_lt by (eapply nth_some_lt; eauto). cbn [bind].
      destruct (N.eqb_spec b 0) as [|_]; [congruence|]. cbn [negb]. rewrite rassert_true. cbn [bind exec].
      assert (Hb : block_of pools rs i b) by now apply inpool_block.
      assert (Hu : unused s l i b = true).
      { destruct Hz as (Z1 & Z2 & Z3 & Z4). cbv beta in Z2, Z3, Z4. rewrite tot_holders in Z1.
        unfold unused. rewrite Z1. cbn [Nat.eqb andb].
        assert (Hno : forall y, cnt l y = 0%nat -> negb (has l y) = true).
        { intros y E1. apply negb_true_iff. destruct (has l y) eqn:Eh; [|reflexivity]. apply has_in, cnt_in in Eh. lia. }
        rewrite !Hno by assumption. reflexivity. }
      assert (Hnz : mp_nfree q <> 0).
      { destruct Hb as (pp & r' & Hpp & Hr' & Hbb).
        pose proof HI as HI0. eapply pool_spec in HI0; [|exact Hpp|exact Hr'].
        destruct HI0 as (q2 & Hq2 & _ & _ & Hn & _).
        assert (q2 = q) by congruence. subst q2. rewrite Hn.
        assert (Hf : In b (filter (unused s l i) (pool_blocks pp r'))) by (apply filter_In; auto).
        destruct (filter (unused s l i) (pool_blocks pp r')); [destruct Hf|cbn [length]; lia]. }
      split; [congruence|]. intros _.
      destruct (KM_blk _ _ _ _ _ _ _ _ _ _ i b (ki_mem _ _ _ _ _ _ _ _ _ HI) Hin) as (p0 & ow & B & HB & Ha & Hp0 & Hv & Hbk).
      destruct (iv_nz _ _ _ _ _ _ Hv b Ha) as (_ & Hd & _).
      destruct (k_mem s b) as [v|] eqn:Ev; [|congruence]. cbn [k_mem set_pools].
      rewrite (hdr_wr_ok _ _ v) by assumption. cbn [bind].
      eexists _, q', b. split; [reflexivity|].
      split; [exact Hb|]. split; [eapply unused_free; eauto|].
      split; [eapply (unused_not_live _ _ _ _ _ _ _ SO); eauto|].
      split; [|split; [reflexivity|split; [exact Hnf|repeat split]]].
      intros a. cbn [k_mem set_mem]. rewrite u8_small by lia. reflexivity.
Qed.

(** *** Publish *)
Lemma rem1_notin x l : cnt l x = 0%nat -> rem1 x l = l.
Proof.
  induction l as [|y t IH]; intros H; [reflexivity|]. rewrite cnt_cons in H. cbn [rem1].
  destruct (litem_dec x y) as [<-|Hne]; [destruct (litem_dec x x); [lia|congruence]|].
  f_equal. apply IH. lia.
Qed.
Lemma ref_not_fresh s l e : KInv s (cnt l) -> (0 < holders s l e)%nat -> cnt l (LFresh e) = 0%nat.
Proof.
  intros HI Hh. destruct (Nat.eq_dec (cnt l (LFresh e)) 0) as [|Hne]; [assumption|exfalso].
  destruct (KM_fresh _ _ _ _ _ _ _ _ _ _ e (ki_mem _ _ _ _ _ _ _ _ _ HI)) as (i & _ & (H1 & _) & _); [lia|].
  rewrite tot_holders in H1. lia.
Qed.
Lemma held_event s l e : KInv s (cnt l) -> (0 < holders s l e)%nat ->
  is_static statics e = true \/ exists i, block_of pools rs i e.
Proof.
  intros HI Hh. destruct (km_T _ _ _ _ _ _ _ _ _ _ (ki_mem _ _ _ _ _ _ _ _ _ HI) e) as [Hs|[i Hi]].
  - rewrite tot_holders. exact Hh.
  - left. now apply is_static_stat.
  - right. exists i. now apply inpool_block.
Qed.

Lemma inc_call s l e : KInv s (cnt l) -> live_evt statics s l e ->
  exists m', inc_ref s e = Ok (set_mem s m') /\ KInv (set_mem s m') (cnt (LRef e :: rem1 (LFresh e) l)).
Proof.
  intros HI Hl. destruct (live_split s l e Hl) as (led & l' & lo & Hc & Hlo & He & Hh & Hled).
  pose proof (KInv_cnt _ _ _ _ Hc HI) as HI1.
  destruct (inc_ref_led c statics PB mem0 rs prios (length dqs) OK Hmax Hasrt s _ lo led e Hlo HI1 He Hh) as (m' & E & _ & HI').
  exists m'. split; [exact E|]. eapply KInv_cnt'; [|exact HI'].
  intros y Hy. cbn [led_step app]. rewrite !cnt_cons, cnt_app, !cnt_rem1, <- Hc by exact Hy. rewrite cnt_app.
  destruct (litem_dec (LFresh e) y) as [<-|]; [|lia].
  pose proof (holds_fresh c statics PB mem0 rs prios (length dqs) OK Hmax Hasrt s _ lo led e Hlo HI1 He Hh) as HF.
  unfold Lc in HF. rewrite cnt_rem1 in HF. destruct litem_dec in HF; [|congruence]. lia.
Qed.

Lemma NoDup_objs s L ps os : KInv s L -> NoDup ps ->
  map (fun p => nth_error (k_sp s) (N.to_nat p)) ps = map (fun o => Some (Some o)) os -> NoDup os.
Proof.
  intros HI. revert os. induction ps as [|p ps IH]; intros [|o os] Hd E; try discriminate; [constructor|].
  cbn [map] in E. injection E as E1 E2. inversion Hd as [|? ? Hn Hd']; subst. constructor; [|now apply IH].
  intros Hi. apply Hn. clear IH Hd Hn Hd'.
  destruct (kq_sp _ _ _ _ _ _ _ _ (ki_q _ _ _ _ _ _ _ _ _ HI) _ _ E1) as (a & Ho & Ep).
  revert ps E2. induction os as [|o' os IH]; intros [|p' ps] E2; try discriminate; [destruct Hi|].
  cbn [map] in E2. injection E2 as E3 E4. destruct Hi as [->|Hi]; [left|right; eauto].
  destruct (kq_sp _ _ _ _ _ _ _ _ (ki_q _ _ _ _ _ _ _ _ _ HI) _ _ E3) as (a' & Ho' & Ep').
  assert (a' = a) by congruence. subst a'. lia.
Qed.

Lemma publish_fold2 e sender : forall ps os s l labs,
  KInv s (cnt l) -> In (LRef e) l -> (forall p, In p ps -> p < 256) -> NoDup ps ->
  map (fun p => nth_error (k_sp s) (N.to_nat p)) ps = map (fun o => Some (Some o)) os ->
  (forall o, In o os -> is_sender sender o = false -> ao_room s o 1) ->
  exists s' labs', cb_fold (ps_cb c e sender) ps (s, labs) = Ok (s', labs ++ labs') /\
    KInv s' (cnt l) /\ posted labs' = filter (fun o => negb (is_sender sender o)) os /\
    (forall o, ao_view s' o = ao_view s o ++ if existsb (Nat.eqb o) os && negb (is_sender sender o) then [e] else []) /\
    (forall d, dq_view s' d = dq_view s d) /\
    (forall x, holders s' l x = (holders s l x +
        if N.eq_dec e x then length (filter (fun o => negb (is_sender sender o)) os) else 0)%nat) /\
    k_sp s' = k_sp s.
Proof.
  induction ps as [|p ps IH]; intros [|o os] s l labs HI Hi Hp Hd E Hroom; try discriminate; cbn [cb_fold].
  - exists s, []. rewrite app_nil_r. split; [reflexivity|]. split; [exact HI|]. split; [reflexivity|].
    split; [intros o; cbn [existsb andb]; now rewrite app_nil_r|]. split; [auto|]. split; [|reflexivity].
    intros x. cbn. destruct (N.eq_dec e x); lia.
  - pose proof (NoDup_objs _ _ _ _ HI Hd E) as Hos. inversion Hos as [|? ? Hno Hos']; subst.
    inversion Hd as [|? ? Hnp Hd']; subst. cbn [map] in E. injection E as E1 E2.
    unfold ps_cb at 1. rewrite u8_small by (apply Hp; now left). rewrite (proj2 (rd_ok _ _ _) E1). cbn [bind].
    rewrite rassert_true. cbn [bind].
    assert (Hh : (0 < holders s l e)%nat) by (apply cnt_in in Hi; unfold holders; lia).
    change (match sender with Some o' => Nat.eqb o o' | None => false end) with (is_sender sender o).
    destruct (is_sender sender o) eqn:Es; cbn [bind].
    + destruct (IH os s l labs HI Hi) as (s' & labs' & Ef & HI' & Hpo & Hv & Hdq & Hho & Hsp); auto.
      { intros p' Hp'. apply Hp. now right. }
      { intros o' Ho'. apply Hroom. now right. }
      exists s', labs'. split; [exact Ef|]. split; [exact HI'|]. cbn [filter]. rewrite Es. cbn [negb].
      split; [exact Hpo|]. split; [|split; [exact Hdq|split; [exact Hho|exact Hsp]]].
      intros o'. rewrite Hv. cbn [existsb]. destruct (Nat.eqb_spec o' o) as [->|]; [|reflexivity].
      rewrite Es. cbn [negb]. rewrite !andb_false_r. reflexivity.
    + destruct (Hroom o ltac:(now left) Es) as (a & Ho & Hlen).
      assert (Hreg : registered s o = true).
      { apply registered_reg. exists a. split; [exact Ho|]. unfold reg.
        destruct (kq_sp _ _ _ _ _ _ _ _ (ki_q _ _ _ _ _ _ _ _ _ HI) _ _ E1) as (a' & Ho' & Ep).
        assert (a' = a) by congruence. subst a'. congruence. }
      destruct (proj2 (post_call false s l o a e HI ltac:(right; right; exact Hh) Ho Hreg) ltac:(lia))
        as (s1 & Ep & HI1 & Hv1 & Hd1 & Hsp1 & _ & _ & _ & Hao1 & Hh1 & _).
      unfold after_post in *. rewrite rem1_notin in * by (eapply ref_not_fresh; eauto).
      rewrite Ep. cbn [bind].
      destruct (IH os s1 l (labs ++ [KPut false o e]) HI1 Hi) as (s' & labs' & Ef & HI' & Hpo & Hv & Hdq & Hho & Hsp); auto.
      { intros p' Hp'. apply Hp. now right. }
      { now rewrite Hsp1. }
      { intros o' Ho' Es'. destruct (Hroom o' ltac:(now right) Es') as (a' & Ha' & Hlen').
        destruct (Hao1 o' a' Ha') as (a2 & Ha2 & En & _). exists a2. split; [exact Ha2|].
        rewrite Hv1, En. destruct (Nat.eqb_spec o' o) as [->|]; [contradiction|exact Hlen']. }
      exists s', (KPut false o e :: labs'). split; [rewrite Ef, <- app_assoc; reflexivity|]. split; [exact HI'|].
      cbn [filter]. rewrite Es. cbn [negb]. split; [unfold posted in *; cbn [map concat app]; now rewrite Hpo|].
      split; [|split; [intros d; now rewrite Hdq|split; [|congruence]]].
      * intros o'. rewrite Hv, Hv1. cbn [existsb]. destruct (Nat.eqb_spec o' o) as [->|]; [|reflexivity].
        rewrite Es. cbn [orb andb negb].
        destruct (existsb (Nat.eqb o) os) eqn:Eo; cbn [andb]; [|now rewrite app_nil_r].
        exfalso. apply existsb_exists in Eo. destruct Eo as (o2 & Hi2 & E3). apply Nat.eqb_eq in E3. subst o2. contradiction.
      * intros x. rewrite Hho, Hh1. cbn [length]. destruct (N.eq_dec e x); lia.
Qed.

Lemma filter_length_le2 {A} (f : A -> bool) l : (length (filter f l) <= length l)%nat.
Proof. induction l as [|x t IH]; cbn [filter length]; [lia|]. destruct (f x); cbn [length]; lia. Qed.

Lemma ascending_NoDup2 l : ascending l -> NoDup l.
Proof.
  induction l as [|x t IH]; intros H; [constructor|]. destruct H as [H1 H2]. constructor; [|now apply IH].
  intros Hi. specialize (H1 x Hi). lia.
Qed.

Lemma publish_effect x ch e sender os : reachable x -> let s := c_s x in let l := led_all x in
  ch < N.of_nat (k_maxch c) -> ch < 256 -> live_evt statics s l e ->
  map (fun p => nth_error (k_sp s) (N.to_nat p)) (subscribers s ch) = map (fun o => Some (Some o)) os ->
  (forall o, In o os -> is_sender sender o = false -> ao_room s o 1) ->
  ref_room statics s l e (1 + length (filter (fun o => negb (is_sender sender o)) os)) ->
  ascending (subscribers s ch) /\
  exists s' labs, exec (ps_publish c ch e sender) s = Ok (s', labs, N.of_nat (length (subscribers s ch))) /\
    posted labs = filter (fun o => negb (is_sender sender o)) os /\
    (forall o, ao_view s' o = ao_view s o ++ if existsb (Nat.eqb o) os && negb (is_sender sender o) then [e] else []) /\
    (forall d, dq_view s' d = dq_view s d).
Proof.
  intros H s l Hc1 Hc2 Hl E Hroom Href. pose proof (reach_inv _ _ _ _ _ _ _ SO x H) as HC.
  pose proof (ci_k _ _ _ _ _ _ _ _ HC) as HI. fold s l in HI. pose proof (ki_q _ _ _ _ _ _ _ _ _ HI) as HQ.
  unfold subscribers in *. destruct (nth_error (k_ch s) (N.to_nat ch)) as [g|] eqn:Eg.
  2:{ apply nth_error_None in Eg. rewrite (kq_chlen _ _ _ _ _ _ _ _ HQ) in Eg. lia. }
  destruct (kq_ch _ _ _ _ _ _ _ _ HQ _ _ Eg) as [CS HR].
  rewrite (rg_list_rel _ _ _ Hmax HR) in *. set (ps := elements (max_sma (q_rg (k_qc c))) CS) in *.
  assert (Hasc : ascending ps) by apply elements_asc. split; [exact Hasc|].
  destruct (inc_call s l e HI Hl) as (m' & Ei & HI1).
  set (l1 := LRef e :: rem1 (LFresh e) l) in *. set (s1 := set_mem s m') in *.
  assert (Hps : forall p, In p ps -> p < 256).
  { intros p Hp. apply in_elements in Hp. pose proof Hmax. lia. }
  destruct (publish_fold2 e sender ps os s1 l1 [KInc e] HI1 ltac:(now left) Hps (ascending_NoDup2 _ Hasc) E Hroom)
    as (s2 & labs2 & Ef & HI2 & Hpo & Hv & Hdq & Hho & Hsp).
  assert (Ex : exec (ps_publish c ch e sender) s =
     match exec (pseq (fwk_gc c e) (fun _ => Ret (N.of_nat (length ps)))) s2 with
     | Ok (s3, l3, v) => Ok (s3, ([KInc e] ++ labs2) ++ l3, v) | Fault f => Fault f end).
  { unfold ps_publish. cbn [exec]. rewrite Ei. cbn [bind]. rewrite u8_small by lia.
    change (k_ch s1) with (k_ch s). rewrite (proj2 (rd_ok _ _ _) Eg). cbn [bind].
    rewrite (rg_traverse_rel _ g CS _ _ Hmax HR). fold ps. rewrite Ef. cbn [bind]. reflexivity. }
  rewrite Ex. clear Ex.
  set (k := length (filter (fun o => negb (is_sender sender o)) os)) in *.
  assert (Hh2 : holders s2 l1 e = (holders s l e + 1 + k)%nat).
  { rewrite Hho. destruct (N.eq_dec e e) as [_|]; [|congruence]. unfold holders. change (all_queued s1) with (all_queued s).
    unfold l1. rewrite cnt_cons, cnt_rem1. repeat destruct litem_dec; try congruence; lia. }
  assert (Hfin : forall s3 labs3, exec (pseq (fwk_gc c e) (fun _ => Ret (N.of_nat (length ps)))) s2 = Ok (s3, labs3, N.of_nat (length ps)) ->
      posted labs3 = [] -> same_queues s2 s3 ->
      exists s' labs, match exec (pseq (fwk_gc c e) (fun _ => Ret (N.of_nat (length ps)))) s2 with
     | Ok (s3, l3, v) => Ok (s3, ([KInc e] ++ labs2) ++ l3, v) | Fault f => Fault f end = Ok (s', labs, N.of_nat (length ps)) /\
      posted labs = filter (fun o => negb (is_sender sender o)) os /\
      (forall o, ao_view s' o = ao_view s o ++ if existsb (Nat.eqb o) os && negb (is_sender sender o) then [e] else []) /\
      (forall d, dq_view s' d = dq_view s d)).
  { intros s3 labs3 E3 Hl3 Hs3. rewrite E3. do 2 eexists. split; [reflexivity|].
    destruct (same_views _ _ Hs3) as (V1 & V2 & _). split; [|split].
    - unfold posted in *. rewrite !map_app, !concat_app. cbn [map concat app]. rewrite Hl3, app_nil_r. exact Hpo.
    - intros o. rewrite V1, Hv. reflexivity.
    - intros d. rewrite V2, Hdq. reflexivity. }
  destruct (held_event s2 l1 e HI2 ltac:(lia)) as [Hst|[i Hb]].
  - eapply Hfin; [rewrite exec_gc_static; [reflexivity|eauto|exact Hst]|reflexivity|repeat split].
  - assert (Hns : is_static statics e = false).
    { destruct (is_static statics e) eqn:Es; [|reflexivity]. apply is_static_stat in Es. exfalso.
      eapply (pb_stat _ _ _ OK); [apply inpool_block; exact Hb|exact Es]. }
    destruct Href as [Href|Href]; [congruence|].
    destruct (Nat.eq_dec (holders s2 l1 e) 1) as [E1|E1].
    + destruct (exec_gc_last s2 l1 e i (fun _ => Ret (N.of_nat (length ps))) HI2 ltac:(now left) Hb E1)
        as (s3 & _ & _ & _ & _ & _ & _ & _ & _ & Hs & E3).
      eapply Hfin; [rewrite E3; reflexivity|reflexivity|exact Hs].
    + destruct (exec_gc_more s2 l1 e i (fun _ => Ret (N.of_nat (length ps))) HI2 ltac:(now left) Hb ltac:(lia))
        as (s3 & _ & _ & _ & _ & _ & _ & Hs & E3).
      eapply Hfin; [rewrite E3; reflexivity|reflexivity|exact Hs].
Qed.
End S.
