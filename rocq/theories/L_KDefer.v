(** Proofs: deferring and recalling events. *)
From Verif Require Import Base L_Base M_RdyGrp S_RdyGrp L_RdyGrp M_Queue S_Queue L_Queue
  M_MemPool S_MemPool L_MemPool M_Kernel S_Kernel L_KMem L_KQueue L_Kernel L_KRun L_KBoot L_KProps L_KSeq.
Local Open Scope N_scope.

Section D.
Context (c : kcfg) (mem0 : @mem cell) (statics : list (N * N)) (prios : list N)
  (dqs : list (list (option N) * nat)) (pools : list (N * N * N)) (rs : list N).
Context (SO : sys_ok c mem0 statics prios dqs pools rs).
Notation PB := (pool_lists pools rs).
Notation KInv := (KInv c statics PB mem0 rs prios (length dqs)).
Notation CInv := (CInv c statics PB mem0 rs prios (length dqs)).
Notation reachable := (reachable c mem0 statics prios dqs pools).
Notation OK := (OK c mem0 statics prios dqs pools rs SO).
Notation Hmax := (Hmax c mem0 statics prios dqs pools rs SO).
Notation Hasrt := (Hasrt c mem0 statics prios dqs pools rs SO).
Notation post_call := (post_call c mem0 statics prios dqs pools rs SO).
Notation after_post := (L_KSeq.after_post).

Lemma defer_call s l d q e : KInv s (cnt l) -> live_evt statics s l e ->
  nth_error (k_dq s) d = Some q ->
  (length (dq_view s d) = q_nelems q -> exec (sma_defer c d e) s = Fault (FAssert 223)) /\
  ((length (dq_view s d) < q_nelems q)%nat ->
   exists s', exec (sma_defer c d e) s = Ok (s', [KDefer d e], 0) /\
    KInv s' (cnt (after_post e l)) /\
    (forall d', dq_view s' d' = if Nat.eqb d' d then dq_view s d ++ [e] else dq_view s d') /\
    (forall o, ao_view s' o = ao_view s o) /\ k_ao s' = k_ao s /\
    k_sp s' = k_sp s /\ k_ch s' = k_ch s /\ k_ep s' = k_ep s /\
    (forall d' q0, nth_error (k_dq s) d' = Some q0 -> exists q1, nth_error (k_dq s') d' = Some q1 /\
        q_nelems q1 = q_nelems q0) /\
    (forall x, holders s' (after_post e l) x = (holders s l x + if N.eq_dec e x then 1 else 0)%nat) /\
    live_evt statics s' (after_post e l) e).
Proof.
  intros HI Hl Eq. destruct (live_split c statics s l e Hl) as (led & l' & lo & Hc & Hlo & He & Hh & Hled).
  pose proof (KInv_cnt c mem0 statics prios dqs pools rs _ _ _ _ Hc HI) as HI1.
  assert (Hvl : dq_view s d = q_view q) by (unfold dq_view; now rewrite Eq). rewrite Hvl.
  destruct (inc_led c statics PB mem0 rs prios (length dqs) OK Hmax Hasrt s _ lo led e Hlo HI1 He Hh) as (m' & E & Hfr & HK).
  pose proof (holds_fresh c statics PB mem0 rs prios (length dqs) OK Hmax Hasrt s _ lo led e Hlo HI1 He Hh) as HF0.
  unfold sma_defer. cbn [exec]. rewrite E. cbn [bind k_dq k_rg set_mem]. rewrite (proj2 (rd_ok _ _ _) Eq). cbn [bind].
  destruct (KQ_defer c prios (length dqs) Hmax Hasrt _ _ _ _ _ d q e (ki_q _ _ _ _ _ _ _ _ _ HI) Eq)
    as [(Hlen & Ep)|(Hlen & q' & g' & Ep & Hv & Hne & HQ')]; rewrite Ep; cbn [bind].
  { split; [reflexivity|lia]. }
  split; [lia|]. intros _. rewrite wr_lt by (eapply nth_some_lt; eauto). cbn [bind exec app].
  set (dq' := upd (k_dq s) d q'). set (s' := set_rg (set_dq (set_mem s m') dq') g').
  assert (Hrefs : forall x, refs s' x = (refs s x + if N.eq_dec e x then 1 else 0)%nat).
  { intros x. pose proof (refs_dq dq' s d q q' x Eq eq_refl) as H1.
    rewrite Hv, count_occ_app in H1. cbn [count_occ] in H1.
    change (refs s' x) with (refs (set_dq s dq') x). destruct (N.eq_dec e x); lia. }
  assert (Hcnt : forall y, is_right y = true -> cnt (after_post e l) y = cnt (led_step led (KDefer d e) ++ l') y).
  { intros y Hy. unfold L_KSeq.after_post. cbn [led_step app]. rewrite cnt_cons, cnt_app, !cnt_rem1, <- Hc by exact Hy.
    rewrite cnt_app. destruct (litem_dec (LLive e) y) as [<-|]; [discriminate|].
    destruct (litem_dec (LFresh e) y) as [<-|]; [|lia].
    unfold Lc in HF0. rewrite cnt_rem1 in HF0. destruct litem_dec in HF0; [|congruence]. lia. }
  assert (Hhold : forall x, holders s' (after_post e l) x = (holders s l x + (if N.eq_dec e x then 1 else 0))%nat).
  { intros x. unfold holders. change (count_occ N.eq_dec (all_queued s') x) with (refs s' x).
    change (count_occ N.eq_dec (all_queued s) x) with (refs s x). rewrite Hrefs. unfold L_KSeq.after_post.
    rewrite cnt_rem1. destruct litem_dec; [congruence|]. lia. }
  exists s'. split; [reflexivity|]. split.
  { eapply KInv_cnt'; [exact Hcnt|].
    constructor; try apply HI; unfold s'; cbn [k_mem k_ep k_ao k_dq k_sp k_rg k_ch set_rg set_dq set_mem]; [|exact HQ'].
    fold s'. set (env := cnt l') in *.
    eapply KM_ext; [apply (HK (tot s' (Lc (led_step led (KDefer d e)) env))
                 (fun a => Lc (led_step led (KDefer d e)) env (LFresh a)))| | | |]; [| | |reflexivity| |reflexivity|].
    + intros x Hx. unfold tot. rewrite Hrefs. unfold Lc. cbn [led_step]. rewrite !cnt_cons, !cnt_rem1.
      destruct (N.eq_dec e x); [congruence|]. repeat destruct litem_dec; try congruence; lia.
    + unfold Lc in *. cbn [led_step]. rewrite cnt_cons. destruct litem_dec; [congruence|]. lia.
    + unfold tot. rewrite Hrefs. unfold Lc. cbn [led_step]. rewrite cnt_cons, cnt_rem1.
      destruct (N.eq_dec e e); [|congruence]. repeat destruct litem_dec; try congruence; lia.
    + intros i x. unfold Lc. cbn [led_step]. rewrite cnt_cons, cnt_rem1. repeat destruct litem_dec; try congruence; lia.
    + intros i x. unfold Lc. cbn [led_step]. rewrite cnt_cons, cnt_rem1. repeat destruct litem_dec; try congruence; lia. }
  split.
  { intros d'. unfold dq_view, s', dq'. cbn [k_dq set_rg set_dq]. destruct (Nat.eqb_spec d' d) as [->|Hn].
    - rewrite nth_upd_eq by (eapply nth_some_lt; eauto). exact Hv.
    - now rewrite nth_upd_ne by auto. }
  split; [reflexivity|]. do 4 (split; [reflexivity|]). split.
  { intros d' q0 Hq0. unfold s', dq'. cbn [k_dq set_rg set_dq]. destruct (Nat.eq_dec d d') as [<-|Hn].
    - assert (q0 = q) by congruence. subst q0. exists q'. split; [apply nth_upd_eq; eapply nth_some_lt; eauto|exact Hne].
    - exists q0. rewrite nth_upd_ne by auto. auto. }
  split; [exact Hhold|]. right; right. rewrite Hhold. destruct (N.eq_dec e e); [lia|congruence].
Qed.

Lemma recall_empty s l o d q : KInv s (cnt l) -> nth_error (k_dq s) d = Some q -> dq_view s d = [] ->
  exists s', exec (sma_recall c o d) s = Ok (s', [], 0) /\ KInv s' (cnt l) /\
    (forall d', dq_view s' d' = dq_view s d') /\ k_ao s' = k_ao s /\ k_mem s' = k_mem s /\
    k_rg s' = k_rg s /\ k_sp s' = k_sp s /\ k_ch s' = k_ch s /\ k_ep s' = k_ep s.
Proof.
  intros HI Eq Hv. pose proof (ki_q _ _ _ _ _ _ _ _ _ HI) as HQ. unfold dq_view in Hv. rewrite Eq in Hv.
  unfold sma_recall. cbn [exec]. rewrite (proj2 (rd_ok _ _ _) Eq). cbn [bind].
  destruct (KQ_undefer c prios (length dqs) Hmax _ _ _ _ _ d q HQ Eq)
    as [(_ & q' & E & Hv' & _ & HQ')|(e & w & q' & Hv0 & _)]; [|congruence].
  rewrite E. cbn [bind]. rewrite wr_lt by (eapply nth_some_lt; eauto). cbn [bind exec app].
  eexists. split; [reflexivity|]. split.
  { constructor; try apply HI; [|exact HQ']. eapply KM_ext; [apply HI| | | |]; try reflexivity.
    intros a. unfold tot. f_equal. pose proof (refs_dq _ s d q q' a Eq eq_refl) as H1. rewrite Hv, Hv' in H1.
    match goal with |- refs ?s1 a = _ => change (refs s1 a) with (refs (set_dq s (upd (k_dq s) d q')) a) end. lia. }
  split; [|repeat split].
  intros d'. unfold dq_view. cbn [k_dq set_rg set_dq]. destruct (Nat.eq_dec d d') as [<-|Hn].
  - rewrite nth_upd_eq by (eapply nth_some_lt; eauto). now rewrite Eq, Hv, Hv'.
  - now rewrite nth_upd_ne by auto.
Qed.

Lemma inc_ref_mem s e s' : inc_ref s e = Ok s' -> exists sig nref pool, k_mem s e = Some (CEvt sig nref pool) /\
  e <> 0 /\
  ((pool = 0 /\ s' = s) \/ (pool <> 0 /\ s' = set_mem s (fun x => if x =? e then Some (CEvt sig (u8 (nref + 1)) pool) else k_mem s x))).
Proof.
  unfold inc_ref, hdr_rd. intros E. destruct (N.eqb_spec e 0) as [|Hne]; [discriminate|].
  destruct (k_mem s e) as [[n|sig nref pool|]|] eqn:Em; try discriminate. cbn [bind] in E.
  exists sig, nref, pool. split; [reflexivity|]. split; [exact Hne|].
  destruct (N.eqb_spec pool 0) as [Hp|Hp]; [left; split; congruence|right]. split; [exact Hp|].
  rewrite (hdr_wr_ok _ _ _ _ _ _ Hne Em) in E. cbn [bind] in E. congruence.
Qed.

Lemma recall_call s l o a d e w : KInv s (cnt l) ->
  nth_error (k_ao s) o = Some a -> registered s o = true -> dq_view s d = e :: w ->
  ((length (ao_view s o) = q_nelems (ao_q a)) -> exec (sma_recall c o d) s = Fault (FAssert 265)) /\
  ((length (ao_view s o) < q_nelems (ao_q a))%nat -> ref_room statics s l e 1 ->
   exists s' labs, exec (sma_recall c o d) s = Ok (s', labs, e) /\ KInv s' (cnt l) /\
    (forall o', ao_view s' o' = if Nat.eqb o' o then e :: ao_view s o else ao_view s o') /\
    (forall d', dq_view s' d' = if Nat.eqb d' d then w else dq_view s d') /\
    (forall x, k_mem s' x = k_mem s x) /\
    k_sp s' = k_sp s /\ k_ch s' = k_ch s /\ k_ep s' = k_ep s /\
    (forall o' a', nth_error (k_ao s) o' = Some a' -> exists a'', nth_error (k_ao s') o' = Some a'' /\
        q_nelems (ao_q a'') = q_nelems (ao_q a') /\ ao_prio a'' = ao_prio a') /\
    (forall x, holders s' l x = holders s l x)).
Proof.
  intros HI Ho Hr Hdv. pose proof (ki_q _ _ _ _ _ _ _ _ _ HI) as HQ.
  unfold dq_view in Hdv. destruct (nth_error (k_dq s) d) as [q|] eqn:Eq; [|discriminate].
  unfold sma_recall. cbn [exec]. rewrite (proj2 (rd_ok _ _ _) Eq). cbn [bind].
  destruct (KQ_undefer c prios (length dqs) Hmax _ _ _ _ _ d q HQ Eq)
    as [(Hv0 & _)|(e0 & w0 & q' & Hv0 & E & Hv' & Hn' & HQ')]; [congruence|].
  assert (e0 = e /\ w0 = w) as [-> ->] by (split; congruence). rewrite E. cbn [bind].
  rewrite wr_lt by (eapply nth_some_lt; eauto). cbn [bind exec]. cbn [app].
  set (s1 := set_rg (set_dq s (upd (k_dq s) d q')) (k_rg s)).
  assert (Hrefs : forall x, (refs s1 x + (if N.eq_dec e x then 1 else 0) = refs s x)%nat).
  { intros x. pose proof (refs_dq _ s d q q' x Eq eq_refl) as H1. rewrite Hv0, Hv' in H1. cbn [count_occ] in H1.
    change (refs s1 x) with (refs (set_dq s (upd (k_dq s) d q')) x). destruct (N.eq_dec e x); lia. }
  set (l1 := LRef e :: l).
  assert (HI1 : KInv s1 (cnt l1)).
  { eapply (KInv_cnt' c mem0 statics prios dqs pools rs _ l1 []); [intros y _; now rewrite app_nil_r|].
    constructor; try apply HI; [|exact HQ'].
    eapply (KM_take c statics PB mem0 rs prios (length dqs) Hmax Hasrt s s1 (cnt []) l e); [|reflexivity|reflexivity|exact Hrefs|reflexivity].
    eapply KInv_cnt; [|exact HI]. intros y _. now rewrite app_nil_r. }
  assert (Hh1 : forall x, holders s1 l1 x = holders s l x).
  { intros x. unfold holders, l1. change (count_occ N.eq_dec (all_queued s1) x) with (refs s1 x).
    change (count_occ N.eq_dec (all_queued s) x) with (refs s x). rewrite cnt_cons. specialize (Hrefs x).
    destruct (N.eq_dec e x), litem_dec; try congruence; lia. }
  assert (Hpos : (0 < holders s1 l1 e)%nat).
  { unfold holders, l1. rewrite cnt_cons. destruct litem_dec; [lia|congruence]. }
  destruct (post_call true s1 l1 o a e HI1 ltac:(right; right; exact Hpos) Ho Hr) as [Hfull Hroom].
  change (ao_view s1 o) with (ao_view s o) in *. split.
  { intros Hf. rewrite (Hfull Hf). reflexivity. }
  intros Hlt Href. destruct (Hroom Hlt) as (s2 & Ep & HI2 & Hv2 & Hd2 & Hsp2 & Hdq2 & Hch2 & Hep2 & Hao2 & Hh2 & _ & Hmem2).
  clear Hfull Hroom. rewrite Ep. cbn [bind exec app].
  assert (Hnf : after_post e l1 = l1).
  { apply rem1_notin. eapply ref_not_fresh; eauto. }
  rewrite Hnf in *.
  assert (HT2 : holders s2 l1 e = S (holders s l e)) by (rewrite Hh2, Hh1; destruct (N.eq_dec e e); [lia|congruence]).
  assert (Hpos' : (0 < holders s l e)%nat) by (rewrite <- Hh1; exact Hpos).
  assert (Hdv2 : forall d', dq_view s2 d' = if Nat.eqb d' d then w else dq_view s d').
  { intros d'. rewrite Hd2. unfold dq_view, s1. cbn [k_dq set_rg set_dq]. destruct (Nat.eqb_spec d' d) as [->|Hn].
    - rewrite nth_upd_eq by (eapply nth_some_lt; eauto). exact Hv'.
    - now rewrite nth_upd_ne by auto. }
  assert (HlT : forall x, holders s2 l x = holders s l x).
  { intros x. specialize (Hh2 x). rewrite Hh1 in Hh2. unfold holders in *. unfold l1 in Hh2. rewrite cnt_cons in Hh2.
    destruct (N.eq_dec e x), litem_dec; try congruence; lia. }
  destruct (inc_ref_mem s1 e _ Hmem2) as (sig & nref & pool & Em & Hne & Hcase).
  destruct (KM_hdr c statics PB mem0 OK _ _ _ _ _ _ e (ki_mem _ _ _ _ _ _ _ _ _ HI2)) as (HS & HD & _).
  destruct (held_event c mem0 statics prios dqs pools rs s l e HI Hpos') as [Hst|[i Hb]].
  - (* static *)
    destruct (HS (proj1 (is_static_stat _ _) Hst)) as [sig' Es]. rewrite Es. cbn [bind]. change (0 =? 0) with true. cbv iota.
    cbn [exec app]. exists s2. eexists. split; [reflexivity|]. split.
    { eapply KInv_ext2; [exact OK| |exact HI2]. intros y _ Hy. unfold l1. rewrite cnt_cons.
      destruct litem_dec as [<-|]; [|reflexivity]. exfalso. apply (Hy e eq_refl). now apply is_static_stat. }
    split; [exact Hv2|]. split; [exact Hdv2|]. split.
    { destruct Hcase as [[_ Es2]|[Hp Es2]].
      - intros x. replace (k_mem s2) with (k_mem (set_mem s1 (k_mem s2))) by reflexivity. now rewrite Es2.
      - exfalso. apply Hp. pose proof (km_stat _ _ _ _ _ _ _ _ _ _ (ki_mem _ _ _ _ _ _ _ _ _ HI)) as Hks.
        apply is_static_stat in Hst. destruct Hst as [sg Hi]. specialize (Hks _ _ Hi). change (k_mem s1) with (k_mem s) in Em. congruence. }
    split; [exact Hsp2|]. split; [exact Hch2|]. split; [exact Hep2|]. split; [exact Hao2|exact HlT].
  - (* dynamic *)
    assert (Hns : is_static statics e = false).
    { destruct (is_static statics e) eqn:Es; [|reflexivity]. apply is_static_stat in Es. exfalso.
      eapply (pb_stat _ _ _ OK); [apply inpool_block; exact Hb|exact Es]. }
    destruct Href as [Href|Href]; [congruence|]. apply inpool_block in Hb.
    destruct (KM_dec c statics PB mem0 OK _ _ _ _ _ _ e i (ki_mem _ _ _ _ _ _ _ _ _ HI2) Hb) as (sg & m3 & Eh & Ew & _ & HK).
    { rewrite tot_holders. lia. }
    rewrite Eh. cbn [bind]. rewrite tot_holders in *. rewrite HT2 in *.
    replace (N.of_nat (S (holders s l e)) =? 0) with false by lia.
    replace (1 <? N.of_nat (S (holders s l e))) with true by lia.
    cbv iota. rewrite rassert_true. cbn [bind]. rewrite Ew. cbn [bind exec app].
    exists (set_mem s2 m3). eexists. split; [reflexivity|]. split.
    { constructor; try apply HI2. cbn [k_mem k_ep set_mem].
      eapply KM_ext; [apply (HK (tot (set_mem s2 m3) (cnt l)))| | | |].
      - intros x Hx. unfold tot, l1. change (refs (set_mem s2 m3) x) with (refs s2 x). rewrite cnt_cons.
        destruct litem_dec; try congruence; lia.
      - rewrite tot_holders. change (holders (set_mem s2 m3) l e) with (holders s2 l e). now rewrite HlT.
      - reflexivity.
      - intros j x. unfold l1. rewrite cnt_cons. destruct litem_dec; try congruence; lia.
      - intros x. unfold l1. rewrite cnt_cons. destruct litem_dec; try congruence; lia.
      - intros j x. unfold l1. rewrite cnt_cons. destruct litem_dec; try congruence; lia. }
    split; [exact Hv2|]. split; [exact Hdv2|]. split.
    { cbn [k_mem set_mem].
      destruct (KM_hdr c statics PB mem0 OK _ _ _ _ _ _ e (ki_mem _ _ _ _ _ _ _ _ _ HI)) as (_ & HD0 & _).
      destruct (HD0 i Hb ltac:(rewrite tot_holders; lia)) as [sg0 E0]. rewrite tot_holders in E0.
      change (k_mem s1) with (k_mem s) in *.
      unfold hdr_rd in E0. destruct (N.eqb_spec e 0); [discriminate|]. rewrite Em in E0. injection E0 as E01 E02 E03.
      rewrite u8_small in E02 by lia.
      destruct Hcase as [[Hp _]|[Hp Es2]]; [lia|].
      assert (Em2 : k_mem s2 = fun x => if x =? e then Some (CEvt sig (u8 (nref + 1)) pool) else k_mem s x).
      { replace (k_mem s2) with (k_mem (set_mem s1 (k_mem s2))) by reflexivity. now rewrite Es2. }
      rewrite Em2 in Eh, Ew. unfold hdr_rd in Eh. destruct (N.eqb_spec e 0); [congruence|]. rewrite N.eqb_refl in Eh.
      injection Eh as Eh1 Eh2 Eh3.
      erewrite hdr_wr_ok in Ew; [|assumption|cbv beta; rewrite N.eqb_refl; reflexivity]. apply (f_equal (ok_or m3)) in Ew. unfold ok_or at 1 2 in Ew. rewrite <- Ew. cbv beta.
      intros x. destruct (N.eqb_spec x e) as [->|]; [|reflexivity]. rewrite Em.
      replace (N.of_nat (S (holders s l e)) - 1) with nref by lia.  congruence. }
    split; [exact Hsp2|]. split; [exact Hch2|]. split; [exact Hep2|]. split; [exact Hao2|exact HlT].
Qed.

(** *** Many of them *)
Lemma defer_all d : forall es s l, KInv s (cnt l) -> (forall e, In e es -> live_evt statics s l e) ->
  dq_room s d (length es) ->
  exists s' l', exec_all c s (map (ODefer d) es) = Ok s' /\ KInv s' (cnt l') /\
    dq_view s' d = dq_view s d ++ es /\ (forall d', d' <> d -> dq_view s' d' = dq_view s d') /\
    k_ao s' = k_ao s /\ k_sp s' = k_sp s /\
    (forall x, holders s' l' x = (holders s l x + count_occ N.eq_dec es x)%nat).
Proof.
  induction es as [|e es IH]; intros s l HI Hl Hroom.
  - exists s, l. rewrite app_nil_r. split; [reflexivity|]. repeat (split; [auto; reflexivity|]). intros x. cbn. lia.
  - destruct Hroom as (q & Eq & Hlen). cbn [length] in Hlen.
    destruct (proj2 (defer_call s l d q e HI (Hl e ltac:(now left)) Eq) ltac:(lia))
      as (s1 & E & HI1 & Hd & Ha & Hao & Hsp & _ & _ & Hq & Hh & Hlv).
    destruct (IH s1 (after_post e l) HI1) as (s' & l' & E' & HI' & Hd1 & Hd2 & Hao' & Hsp' & Hh').
    { intros e' Hi. destruct (Hl e' ltac:(now right)) as [H|[H|H]]; [now left| |].
      - destruct (N.eq_dec e e') as [<-|Hne]; [exact Hlv|]. right; left. apply in_rem1_ne; [congruence|exact H].
      - right; right. rewrite Hh. lia. }
    { destruct (Hq d q Eq) as (q1 & Eq1 & Hn). exists q1. split; [exact Eq1|]. rewrite Hd, Nat.eqb_refl, app_length, Hn. cbn [length]. lia. }
    exists s', l'. cbn [map exec_all api]. rewrite E. split; [exact E'|]. split; [exact HI'|].
    rewrite Hd, Nat.eqb_refl in Hd1. split; [rewrite Hd1, <- app_assoc; reflexivity|]. split.
    { intros d' Hne. rewrite Hd2 by exact Hne. rewrite Hd. destruct (Nat.eqb_spec d' d); [congruence|reflexivity]. }
    split; [congruence|]. split; [congruence|]. intros x. rewrite Hh', Hh. cbn [count_occ]. destruct (N.eq_dec e x); lia.
Qed.

Lemma recall_all o d : forall es w s l, KInv s (cnt l) -> registered s o = true -> dq_view s d = es ++ w ->
  ao_room s o (length es) -> (forall e, In e es -> ref_room statics s l e 1) ->
  exists s', exec_all c s (repeat (ORecall o d) (length es)) = Ok s' /\ KInv s' (cnt l) /\
    dq_view s' d = w /\ ao_view s' o = rev es ++ ao_view s o /\
    (forall d', d' <> d -> dq_view s' d' = dq_view s d') /\ (forall o', o' <> o -> ao_view s' o' = ao_view s o') /\
    (forall x, k_mem s' x = k_mem s x).
Proof.
  induction es as [|e es IH]; intros w s l HI Hr Hv Hroom Href.
  - exists s. cbn [length repeat exec_all rev app]. repeat (split; [auto; reflexivity|]). auto.
  - destruct Hroom as (a & Ho & Hlen). cbn [length] in Hlen.
    destruct (proj2 (recall_call s l o a d e (es ++ w) HI Ho Hr Hv) ltac:(lia) (Href e ltac:(now left)))
      as (s1 & labs & E & HI1 & Ha & Hd & Hm & Hsp & Hch & Hep & Hao & Hh).
    destruct (Hao o a Ho) as (a1 & Ho1 & Hn1 & Hp1).
    destruct (IH w s1 l HI1) as (s' & E' & HI' & Hd' & Ha' & Hd2 & Ha2 & Hm').
    { unfold registered in *. rewrite Ho1, Hp1, Hsp. rewrite Ho in Hr. exact Hr. }
    { now rewrite Hd, Nat.eqb_refl. }
    { exists a1. split; [exact Ho1|]. rewrite Ha, Nat.eqb_refl, Hn1. cbn [length]. lia. }
    { intros e' Hi. destruct (Href e' ltac:(now right)) as [H|H]; [now left|right]. now rewrite Hh. }
    exists s'. cbn [length repeat exec_all api]. rewrite E. split; [exact E'|]. split; [exact HI'|]. split; [exact Hd'|].
    split; [rewrite Ha', Ha, Nat.eqb_refl; cbn [rev]; rewrite <- app_assoc; reflexivity|].
    split; [|split].
    + intros d' Hne. rewrite Hd2, Hd by exact Hne. destruct (Nat.eqb_spec d' d); [congruence|reflexivity].
    + intros o' Hne. rewrite Ha2, Ha by exact Hne. destruct (Nat.eqb_spec o' o); [congruence|reflexivity].
    + intros x. now rewrite Hm', Hm.
Qed.

Lemma exec_all_app s ops1 ops2 : exec_all c s (ops1 ++ ops2) =
  match exec_all c s ops1 with Ok s' => exec_all c s' ops2 | Fault f => Fault f end.
Proof.
  revert s. induction ops1 as [|op t IH]; intros s; cbn [app exec_all]; [reflexivity|].
  destruct (exec (api c op) s) as [[[s' labs] v]|]; [apply IH|reflexivity].
Qed.

Lemma KInv_reach x : reachable x -> KInv (c_s x) (cnt (led_all x)).
Proof. intros H. exact (ci_k _ _ _ _ _ _ _ _ (reach_inv _ _ _ _ _ _ _ SO x H)). Qed.

Lemma defer_effect x d e q : reachable x -> let s := c_s x in live_evt statics s (led_all x) e ->
  nth_error (k_dq s) d = Some q ->
  (length (dq_view s d) = q_nelems q -> exec (sma_defer c d e) s = Fault (FAssert 223)) /\
  ((length (dq_view s d) < q_nelems q)%nat ->
   exists s', exec (sma_defer c d e) s = Ok (s', [KDefer d e], 0) /\
    (forall d', dq_view s' d' = if Nat.eqb d' d then dq_view s d ++ [e] else dq_view s d') /\
    (forall o, ao_view s' o = ao_view s o)).
Proof.
  intros H s Hl Eq. destruct (defer_call s _ d q e (KInv_reach x H) Hl Eq) as [H1 H2]. split; [exact H1|].
  intros Hlt. destruct (H2 Hlt) as (s' & E & _ & Hd & Ha & _). eauto.
Qed.

Lemma recall_effect x o d : reachable x -> let s := c_s x in registered s o = true ->
  (d < length (k_dq s))%nat ->
  match dq_view s d with
  | [] => exists s', exec (sma_recall c o d) s = Ok (s', [], 0) /\ k_ao s' = k_ao s /\
      (forall d', dq_view s' d' = dq_view s d') /\ k_mem s' = k_mem s /\ k_rg s' = k_rg s
  | e :: w => ao_room s o 1 -> ref_room statics s (led_all x) e 1 ->
      exists s' labs, exec (sma_recall c o d) s = Ok (s', labs, e) /\
        (forall o', ao_view s' o' = if Nat.eqb o' o then e :: ao_view s o else ao_view s o') /\
        (forall d', dq_view s' d' = if Nat.eqb d' d then w else dq_view s d') /\
        (forall y, k_mem s' y = k_mem s y)
  end.
Proof.
  intros H s Hr Hd. pose proof (KInv_reach x H) as HI. fold s in HI.
  destruct (nth_error (k_dq s) d) as [q|] eqn:Eq; [|apply nth_error_None in Eq; lia].
  destruct (dq_view s d) as [|e w] eqn:Hv.
  - destruct (recall_empty s _ o d q HI Eq Hv) as (s' & E & _ & Hdv & Hao & Hm & Hrg & _). eauto 10.
  - intros (a & Ho & Hlen) Href.
    destruct (proj2 (recall_call s _ o a d e w HI Ho Hr Hv) ltac:(lia) Href) as (s' & labs & E & _ & Ha & Hdv & Hm & _).
    exists s', labs. auto.
Qed.

Lemma defer_recall_all x o d es : reachable x -> let s := c_s x in let l := led_all x in
  registered s o = true -> (forall e, In e es -> live_evt statics s l e) ->
  dq_room s d (length es) -> ao_room s o (length (dq_view s d ++ es)) ->
  (forall e, In e (dq_view s d ++ es) -> ref_room statics s l e (S (count_occ N.eq_dec es e))) ->
  exists s', exec_all c s (map (ODefer d) es ++ repeat (ORecall o d) (length (dq_view s d ++ es))) = Ok s' /\
    dq_view s' d = [] /\ ao_view s' o = rev (dq_view s d ++ es) ++ ao_view s o /\
    (forall d', d' <> d -> dq_view s' d' = dq_view s d') /\ (forall o', o' <> o -> ao_view s' o' = ao_view s o').
Proof.
  intros H s l Hr Hl Hd Ha Href. pose proof (KInv_reach x H) as HI. fold s l in HI.
  destruct (defer_all d es s l HI Hl Hd) as (s1 & l1 & E1 & HI1 & Hd1 & Hd2 & Hao & Hsp & Hh).
  assert (Hav : forall o', ao_view s1 o' = ao_view s o') by (intros o'; unfold ao_view; now rewrite Hao).
  destruct (recall_all o d (dq_view s d ++ es) [] s1 l1 HI1) as (s' & E2 & _ & Hd' & Ha' & Hd3 & Ha3 & _).
  - unfold registered in *. now rewrite Hao, Hsp.
  - now rewrite app_nil_r.
  - destruct Ha as (a & Ho & Hlen). exists a. rewrite Hao, Hav. auto.
  - intros e Hi. destruct (Href e Hi) as [Hs|Hs]; [now left|right]. rewrite Hh. lia.
  - exists s'. rewrite exec_all_app, E1. split; [exact E2|]. split; [exact Hd'|]. rewrite Ha', Hav. split; [reflexivity|].
    split; [intros d' Hne; rewrite Hd3, Hd2 by exact Hne; reflexivity|].
    intros o' Hne. now rewrite Ha3, Hav.
Qed.
End D.
