(** Proofs: what the kernel invariant says about reachable states. *)
From Verif Require Import Base L_Base M_RdyGrp S_RdyGrp L_RdyGrp M_Queue S_Queue L_Queue
  M_MemPool S_MemPool L_MemPool M_Kernel S_Kernel L_KMem L_KQueue L_Kernel L_KRun L_KBoot.
From Coq Require Import Permutation.
Local Open Scope N_scope.

(** *** Groups as lists *)
Lemma cb_fold_list l : forall l0, cb_fold (fun p l => Ok (l ++ [p])) l l0 = Ok (l0 ++ l).
Proof.
  induction l as [|p t IH]; intros l0; cbn [cb_fold bind]; [now rewrite app_nil_r|].
  rewrite IH. now rewrite <- app_assoc.
Qed.
Lemma rg_list_rel c g S : 1 <= max_sma c <= 64 -> rg_rel c g S -> rg_list g = elements (max_sma c) S.
Proof. intros Hc HR. unfold rg_list. rewrite (rg_traverse_rel c g S) by auto. now rewrite cb_fold_list. Qed.

(** *** Free lists *)
Lemma chain_free m a l : chain get_link m a l -> forall x, on_free_list m a x <-> In x l.
Proof.
  intros H. induction H as [|a v n l Ha Hm Hl Hc IH]; intros x.
  - split; [|intros []]. intros H. inversion H; congruence.
  - split.
    + intros H. inversion H as [b Hb|b n' y Hb Hm' Hn]; subst; [now left|]. right. apply IH.
      rewrite Hm in Hm'. injection Hm' as ->. cbn [get_link] in Hl. injection Hl as <-. exact Hn.
    + intros [<-|Hx]; [now constructor|]. destruct v; try discriminate. cbn [get_link] in Hl. injection Hl as ->.
      econstructor; [exact Ha|exact Hm|]. now apply IH.
Qed.

Lemma NoDup_app_disj {A} (l1 l2 : list A) x : NoDup (l1 ++ l2) -> In x l1 -> In x l2 -> False.
Proof.
  induction l1 as [|y t IH]; intros H H1 H2; [exact H1|]. cbn [app] in H. inversion H as [|z u Hn Hd]; subst.
  destruct H1 as [->|H1]; [|now apply IH]. apply Hn. apply in_app_iff. auto.
Qed.
Lemma NoDup_app_l {A} (l1 l2 : list A) : NoDup (l1 ++ l2) -> NoDup l1.
Proof.
  induction l1 as [|y t IH]; intros H; [constructor|]. cbn [app] in H. inversion H as [|z u Hn Hd]; subst.
  constructor; [|auto]. intros Hi. apply Hn. apply in_app_iff. auto.
Qed.

Section P.
Context (c : kcfg) (mem0 : @mem cell) (statics : list (N * N)) (prios : list N)
  (dqs : list (list (option N) * nat)) (pools : list (N * N * N)) (rs : list N).
Context (SO : sys_ok c mem0 statics prios dqs pools rs).
Notation PB := (pool_lists pools rs).
Notation KInv := (KInv c statics PB mem0 rs prios (length dqs)).
Notation CInv := (CInv c statics PB mem0 rs prios (length dqs)).
Notation reachable := (reachable c mem0 statics prios dqs pools).

Lemma every_interleaving :
  exists s, start c mem0 prios dqs pools = Ok s /\
  forall chs, (exists x, crun c statics (conf0 s) chs = Ok x) \/
              (exists f, crun c statics (conf0 s) chs = Fault f /\ resource_fault f).
Proof.
  destruct (system_ok c mem0 statics prios dqs pools rs SO) as (s & E & H). exists s. split; [exact E|].
  intros chs. destruct (H chs) as [(x & Ex & _)|Hf]; eauto.
Qed.

Lemma reach_inv x : reachable x -> CInv x.
Proof.
  intros (s & chs & Es & Ex). destruct (system_ok c mem0 statics prios dqs pools rs SO) as (s' & E & H).
  assert (s' = s) by congruence. subst s'. destruct (H chs) as [(x' & Ex' & HC)|(f & Ef & _)]; congruence.
Qed.
Lemma reach_step x ch x' : reachable x -> cstep c statics x ch = Ok x' -> reachable x'.
Proof.
  intros (s & chs & Es & Ex) E. exists s, (chs ++ [ch]). split; [exact Es|].
  clear Es. revert Ex. generalize (conf0 s). induction chs as [|h t IH]; intros y Ey; cbn [crun app] in *.
  - injection Ey as <-. rewrite E. reflexivity.
  - destruct (cstep c statics y h) as [y'|]; [|discriminate]. cbn [bind] in *. now apply IH.
Qed.

Lemma inpool_block i a : inpool PB i a <-> block_of pools rs i a.
Proof.
  unfold inpool, block_of. split.
  - intros (B & HB & Ha). apply PB_nth in HB. destruct HB as (a0 & n & b & r & Hp & Hr & ->).
    exists (a0, n, b), r. auto.
  - intros ([[a0 n] b] & r & Hp & Hr & Ha). eexists. split; [|exact Ha]. apply PB_nth. exists a0, n, b, r. auto.
Qed.

Lemma OK : pb_ok c statics PB.
Proof. now apply (boot_pb_ok c mem0 statics prios dqs). Qed.
Lemma Hmax : 1 <= max_sma (q_rg (k_qc c)) <= 64.
Proof. apply (so_max _ _ _ _ _ _ _ SO). Qed.

(** *** C05 *)
Lemma ready_spec s L : KInv s L ->
  (forall p, In p (rg_list (k_rg s)) <->
     exists o a, nth_error (k_ao s) o = Some a /\ ao_prio a = p /\ ao_view s o <> []) /\
  (rg_isReady (k_rg s) = true <-> exists o, ao_view s o <> []).
Proof.
  intros HI. pose proof (ki_q _ _ _ _ _ _ _ _ _ HI) as HQ. pose proof (kq_rg _ _ _ _ _ _ _ _ HQ) as HR.
  assert (H1 : forall p, rdy (k_ao s) (k_sp s) p = true <->
     exists o a, nth_error (k_ao s) o = Some a /\ ao_prio a = p /\ ao_view s o <> []).
  { intros p. unfold rdy. split.
    - destruct (nth_error (k_sp s) (N.to_nat p)) as [[o|]|] eqn:Es; try discriminate.
      destruct (kq_sp _ _ _ _ _ _ _ _ HQ _ _ Es) as (a & Ho & Ea). rewrite Ho. intros Hq.
      exists o, a. split; [exact Ho|]. split; [lia|]. unfold ao_view. rewrite Ho.
      intros E. apply q_view_nil in E. rewrite E in Hq. discriminate.
    - intros (o & a & Ho & Ea & Hv). unfold ao_view in Hv. rewrite Ho in Hv.
      assert (Hq : q_qty (ao_q a) <> 0%nat) by (intros E; apply Hv; now apply q_view_nil).
      assert (Hreg : nth_error (k_sp s) (N.to_nat p) = Some (Some o)).
      { destruct (nth_error (k_sp s) (N.to_nat p)) as [[o'|]|] eqn:Es.
        - destruct (Nat.eq_dec o o') as [<-|Hne]; [reflexivity|exfalso].
          apply Hq. eapply (kq_off _ _ _ _ _ _ _ _ HQ); [exact Ho|]. unfold reg. rewrite Ea, Es. congruence.
        - exfalso. apply Hq. eapply (kq_off _ _ _ _ _ _ _ _ HQ); [exact Ho|]. unfold reg. rewrite Ea, Es. congruence.
        - exfalso. apply Hq. eapply (kq_off _ _ _ _ _ _ _ _ HQ); [exact Ho|]. unfold reg. rewrite Ea, Es. congruence. }
      rewrite Hreg, Ho. apply negb_true_iff, Nat.eqb_neq. exact Hq. }
  split.
  - intros p. rewrite (rg_list_rel _ _ _ Hmax HR), in_elements, <- H1. split; [tauto|].
    intros H. split; [|exact H]. now apply (rr_max _ _ _ HR).
  - destruct (rg_isReady_rel _ _ _ Hmax HR) as [A B]. split.
    + intros E. destruct (proj1 (conj A B) E) as [p Hp].
      apply H1 in Hp. destruct Hp as (o & _ & _ & _ & Hv). eauto.
    + intros [o Hv]. apply B. assert (exists a, nth_error (k_ao s) o = Some a) as [a Ho].
      { unfold ao_view in Hv. destruct (nth_error (k_ao s) o); [eauto|congruence]. }
      exists (ao_prio a). apply H1. eauto.
Qed.
Lemma ready_iff_pending x : reachable x -> let s := c_s x in
  (forall p, In p (rg_list (k_rg s)) <->
     exists o a, nth_error (k_ao s) o = Some a /\ ao_prio a = p /\ ao_view s o <> []) /\
  (rg_isReady (k_rg s) = true <-> exists o, ao_view s o <> []).
Proof. intros H. eapply ready_spec. apply (ci_k _ _ _ _ _ _ _ _ (reach_inv x H)). Qed.

(** *** C17, C18, C20 *)
Lemma refcount_inv x : CInv x -> let s := c_s x in let l := led_all x in
  (forall i e, block_of pools rs i e -> (0 < holders s l e)%nat ->
     (holders s l e <= 255)%nat /\
     exists sig, k_mem s e = Some (CEvt sig (N.of_nat (holders s l e)) (N.of_nat i + 1))) /\
  (forall e, In (LFresh e) l -> holders s l e = 0%nat /\ cnt l (LFresh e) = 1%nat /\
     exists i sig, block_of pools rs i e /\ k_mem s e = Some (CEvt sig 0 (N.of_nat i + 1))).
Proof.
  intros H s l. pose proof H as HC. pose proof (ki_mem _ _ _ _ _ _ _ _ _ (ci_k _ _ _ _ _ _ _ _ HC)) as HM.
  split.
  - intros i e Hb Hh. apply inpool_block in Hb.
    pose proof (ci_b _ _ _ _ _ _ _ _ HC e (pb_stat _ _ _ OK _ _ Hb)) as Hle.
    rewrite tot_holders in Hle. split; [exact Hle|].
    destruct (KM_live _ _ _ _ _ _ _ _ _ _ i e HM Hb) as (_ & sig & Em); [rewrite tot_holders; exact Hh|].
    exists sig. rewrite tot_holders in Em. rewrite u8_small in Em by (unfold s, l in *; lia). exact Em.
  - intros e He. destruct (KM_fresh _ _ _ _ _ _ _ _ _ _ e HM) as (i & Hi & (H1 & _ & H2 & _) & sig & Em).
    { now apply cnt_in. }
    cbv beta in H2. rewrite tot_holders in H1. split; [exact H1|]. split; [exact H2|].
    exists i, sig. split; [now apply inpool_block|exact Em].
Qed.
Lemma refcount x : reachable x -> let s := c_s x in let l := led_all x in
  (forall i e, block_of pools rs i e -> (0 < holders s l e)%nat ->
     (holders s l e <= 255)%nat /\
     exists sig, k_mem s e = Some (CEvt sig (N.of_nat (holders s l e)) (N.of_nat i + 1))) /\
  (forall e, In (LFresh e) l -> holders s l e = 0%nat /\ cnt l (LFresh e) = 1%nat /\
     exists i sig, block_of pools rs i e /\ k_mem s e = Some (CEvt sig 0 (N.of_nat i + 1))).
Proof. intros H. apply refcount_inv. now apply reach_inv. Qed.

Lemma blk_unused s l m i a own :
  blk m (tot s (cnt l)) (fun i a => cnt l (LRaw i a)) (fun a => cnt l (LFresh a)) (fun i a => cnt l (LDead i a)) i a own ->
  (unused s l i a = true <-> ~ own).
Proof.
  intros Hb. unfold unused. unfold blk in Hb. rewrite tot_holders in Hb.
  assert (Hh : forall y, has l y = true <-> (0 < cnt l y)%nat) by (intros y; rewrite has_in; now rewrite cnt_in).
  assert (Hf : forall y, negb (has l y) = true <-> cnt l y = 0%nat).
  { intros y. rewrite negb_true_iff. specialize (Hh y). destruct (has l y).
    - assert (0 < cnt l y)%nat by tauto. split; [discriminate|lia].
    - split; [|reflexivity]. intros _. destruct (Nat.eq_dec (cnt l y) 0) as [E0|E0]; [exact E0|].
      assert (false = true) by (apply Hh; lia). discriminate. }
  rewrite !andb_true_iff, !Hf, Nat.eqb_eq. split.
  - intros (((A & B) & C) & D) Ho. destruct Hb as [(Hn & _)|(_ & [Hb|[(Hb & _)|[Hb|(Hb & _)]]])]; try lia. contradiction.
  - intros Hn. destruct Hb as [(_ & Hb)|(Ho & _)]; [tauto|contradiction].
Qed.

Lemma pool_spec s l i p r : KInv s (cnt l) -> nth_error pools i = Some p -> nth_error rs i = Some r ->
  exists q, nth_error (k_ep s) i = Some q /\ mp_bsize q = r /\
    mp_nblocks q = N.of_nat (length (pool_blocks p r)) /\
    mp_nfree q = N.of_nat (length (filter (unused s l i) (pool_blocks p r))) /\
    forall a, on_free_list (k_mem s) (mp_free q) a <-> In a (pool_blocks p r) /\ unused s l i a = true.
Proof.
  intros HI Hp Hr. pose proof (ki_mem _ _ _ _ _ _ _ _ _ HI) as HM. destruct p as [[a0 n] b].
  assert (HB : nth_error PB i = Some (pool_blocks (a0, n, b) r)) by (apply PB_nth; exists a0, n, b, r; auto).
  destruct (km_pool _ _ _ _ _ _ _ _ _ _ HM i _ HB) as (q & ow & Hq & Hv & Hbk).
  exists q. split; [exact Hq|]. split.
  { pose proof (ki_bs _ _ _ _ _ _ _ _ _ HI i q (nth_some_lt _ _ _ HB) Hq) as E. congruence. }
  split; [apply (iv_nb _ _ _ _ _ _ Hv)|].
  destruct (iv_fl _ _ _ _ _ _ Hv) as (fl & Hch & HP & Hnf).
  pose proof (iv_B _ _ _ _ _ _ Hv) as HND.
  assert (HND2 : NoDup (fl ++ ow)) by (eapply Permutation_NoDup; [symmetry; exact HP|exact HND]).
  assert (Hfl : forall a, In a fl <-> In a (pool_blocks (a0, n, b) r) /\ unused s l i a = true).
  { intros a. split.
    - intros Ha. assert (Hin : In a (pool_blocks (a0, n, b) r)) by (eapply Permutation_in; [exact HP|apply in_app_iff; auto]).
      split; [exact Hin|]. apply (blk_unused _ _ _ _ _ _ (Hbk a Hin)).
      intros Ho. eapply (NoDup_app_disj); eauto.
    - intros [Hin Hu]. apply (blk_unused _ _ _ _ _ _ (Hbk a Hin)) in Hu.
      eapply Permutation_in in Hin; [|symmetry; exact HP]. apply in_app_iff in Hin. tauto. }
  split.
  - rewrite Hnf. f_equal. apply Permutation_length. apply NoDup_Permutation.
    + eapply NoDup_app_l; eauto.
    + now apply NoDup_filter.
    + intros a. rewrite filter_In. apply Hfl.
  - intros a. rewrite (chain_free _ _ _ Hch). apply Hfl.
Qed.

Lemma free_unused s l i a : KInv s (cnt l) -> (i < length pools)%nat -> free_block s i a ->
  block_of pools rs i a /\ unused s l i a = true.
Proof.
  intros HI Hi (q & Hq & Hf). destruct (nth_error pools i) as [p|] eqn:Ep; [|apply nth_error_None in Ep; lia].
  destruct (nth_error rs i) as [r|] eqn:Er.
  2:{ apply nth_error_None in Er. rewrite (so_len _ _ _ _ _ _ _ SO) in Er. lia. }
  destruct (pool_spec s l i p r HI Ep Er) as (q' & Hq' & _ & _ & _ & Hx).
  assert (q' = q) by congruence. subst q'. apply Hx in Hf. split; [|tauto]. exists p, r. tauto.
Qed.
Lemma unused_free s l i a : KInv s (cnt l) -> block_of pools rs i a -> unused s l i a = true -> free_block s i a.
Proof.
  intros HI (p & r & Hp & Hr & Ha) Hu. destruct (pool_spec s l i p r HI Hp Hr) as (q & Hq & _ & _ & _ & Hx).
  exists q. split; [exact Hq|]. apply Hx. auto.
Qed.
Lemma unused_not_live s l i a : KInv s (cnt l) -> block_of pools rs i a -> unused s l i a = true ->
  ~ live_evt statics s l a.
Proof.
  intros HI Hb Hu Hl. unfold unused in Hu. rewrite !andb_true_iff, Nat.eqb_eq in Hu. destruct Hu as (((H1 & H2) & _) & _).
  destruct Hl as [Hs|[Hf|Hh]]; [|apply has_in in Hf; rewrite Hf in H2; discriminate|lia].
  apply is_static_stat in Hs. apply inpool_block in Hb. exact (pb_stat _ _ _ OK _ _ Hb Hs).
Qed.

Lemma no_use_after_free_inv x : CInv x -> let s := c_s x in let l := led_all x in
  (forall e, live_evt statics s l e ->
     (exists sig nref pool, k_mem s e = Some (CEvt sig nref pool)) /\
     forall j, (j < length pools)%nat -> ~ free_block s j e) /\
  (forall i a, In (LRaw i a) l \/ In (LDead i a) l ->
     block_of pools rs i a /\ ~ live_evt statics s l a /\
     forall j, (j < length pools)%nat -> ~ free_block s j a).
Proof.
  intros H s l. pose proof H as HC. pose proof (ci_k _ _ _ _ _ _ _ _ HC) as HI.
  pose proof (ki_mem _ _ _ _ _ _ _ _ _ HI) as HM. split.
  - intros e Hl. split.
    + destruct Hl as [Hs|[Hf|Hh]].
      * apply is_static_stat in Hs. destruct Hs as [sig Hs]. exists sig, 0, 0. eapply km_stat; eauto.
      * destruct (proj2 (refcount_inv x H) e Hf) as (_ & _ & i & sig & _ & Em). eauto.
      * destruct (km_T _ _ _ _ _ _ _ _ _ _ HM e) as [[sig Hs]|[i Hi]]; [rewrite tot_holders; exact Hh| |].
        -- exists sig, 0, 0. eapply km_stat; eauto.
        -- apply inpool_block in Hi. destruct (proj1 (refcount_inv x H) i e Hi Hh) as (_ & sig & Em). eauto.
    + intros j Hj Hf. destruct (free_unused _ _ _ _ HI Hj Hf) as [Hb Hu].
      exact (unused_not_live _ _ _ _ HI Hb Hu Hl).
  - intros i a Hi.
    assert (Hin : inpool PB i a).
    { destruct Hi as [Hi|Hi]; apply cnt_in in Hi; [eapply km_W; eauto|eapply km_D; eauto]. }
    assert (Hb : block_of pools rs i a) by now apply inpool_block.
    split; [exact Hb|].
    destruct (KM_blk _ _ _ _ _ _ _ _ _ _ i a HM Hin) as (q & ow & B & HB & Ha & Hq & Hv & Hbk).
    unfold blk in Hbk. rewrite tot_holders in Hbk. fold s l in Hbk.
    assert (Hpos : (0 < cnt l (LRaw i a) + cnt l (LDead i a))%nat)
      by (destruct Hi as [Hi|Hi]; apply cnt_in in Hi; lia).
    assert (Hz : holders s l a = 0%nat /\ cnt l (LFresh a) = 0%nat).
    { destruct Hbk as [?|(_ & [?|[(? & _)|[?|(? & _)]]])]; lia. }
    split.
    + intros [Hs|[Hf|Hh]]; [|apply cnt_in in Hf; lia|lia].
      apply is_static_stat in Hs. exact (pb_stat _ _ _ OK _ _ Hin Hs).
    + intros j Hj Hf. destruct (free_unused _ _ _ _ HI Hj Hf) as [Hbj Hu].
      assert (j = i) by (eapply (pb_one _ _ _ OK); [apply inpool_block; exact Hbj|exact Hin]). subst j.
      fold s l in Hu. unfold unused in Hu. rewrite !andb_true_iff, !negb_true_iff in Hu. destruct Hu as ((_ & H2) & H3).
      destruct Hi as [Hi|Hi]; apply has_in in Hi; congruence.
Qed.
Lemma no_use_after_free x : reachable x -> let s := c_s x in let l := led_all x in
  (forall e, live_evt statics s l e ->
     (exists sig nref pool, k_mem s e = Some (CEvt sig nref pool)) /\
     forall j, (j < length pools)%nat -> ~ free_block s j e) /\
  (forall i a, In (LRaw i a) l \/ In (LDead i a) l ->
     block_of pools rs i a /\ ~ live_evt statics s l a /\
     forall j, (j < length pools)%nat -> ~ free_block s j a).
Proof. intros H. apply no_use_after_free_inv. now apply reach_inv. Qed.

Lemma no_leak_inv x i p r : CInv x -> nth_error pools i = Some p -> nth_error rs i = Some r ->
  let s := c_s x in let l := led_all x in
  exists q, nth_error (k_ep s) i = Some q /\ mp_bsize q = r /\
    mp_nblocks q = N.of_nat (length (pool_blocks p r)) /\
    mp_nfree q = N.of_nat (length (filter (unused s l i) (pool_blocks p r))) /\
    forall a, on_free_list (k_mem s) (mp_free q) a <-> In a (pool_blocks p r) /\ unused s l i a = true.
Proof. intros H Hp Hr. apply pool_spec; auto. apply (ci_k _ _ _ _ _ _ _ _ H). Qed.
Lemma no_leak x i p r : reachable x -> nth_error pools i = Some p -> nth_error rs i = Some r ->
  let s := c_s x in let l := led_all x in
  exists q, nth_error (k_ep s) i = Some q /\ mp_bsize q = r /\
    mp_nblocks q = N.of_nat (length (pool_blocks p r)) /\
    mp_nfree q = N.of_nat (length (filter (unused s l i) (pool_blocks p r))) /\
    forall a, on_free_list (k_mem s) (mp_free q) a <-> In a (pool_blocks p r) /\ unused s l i a = true.
Proof. intros H. apply no_leak_inv. now apply reach_inv. Qed.

Lemma filter_all {A} (f : A -> bool) l : (forall x, In x l -> f x = true) -> filter f l = l.
Proof.
  induction l as [|x t IH]; intros H; [reflexivity|]. cbn [filter]. rewrite H by now left.
  f_equal. apply IH. intros y Hy. apply H. now right.
Qed.
Lemma drained_inv x i q : CInv x ->
  (forall e, In e (all_queued (c_s x)) -> is_static statics e = true) ->
  (forall y, In y (led_all x) -> is_right y = true -> exists e, y = LRef e /\ is_static statics e = true) ->
  (i < length pools)%nat -> nth_error (k_ep (c_s x)) i = Some q -> mp_nfree q = mp_nblocks q.
Proof.
  intros H Hq Hl Hi Hep. destruct (nth_error pools i) as [p|] eqn:Ep; [|apply nth_error_None in Ep; lia].
  destruct (nth_error rs i) as [r|] eqn:Er.
  2:{ apply nth_error_None in Er. rewrite (so_len _ _ _ _ _ _ _ SO) in Er. lia. }
  destruct (no_leak_inv x i p r H Ep Er) as (q' & Hq' & _ & Hn & Hf & _). assert (q' = q) by congruence. subst q'.
  rewrite Hf, Hn. f_equal. f_equal. apply filter_all. intros a Ha.
  assert (Hns : is_static statics a = false).
  { destruct (is_static statics a) eqn:E; [|reflexivity]. apply is_static_stat in E. exfalso.
    eapply (pb_stat _ _ _ OK i a); [|exact E]. apply inpool_block. exists p, r. auto. }
  unfold unused. rewrite !andb_true_iff, !negb_true_iff, Nat.eqb_eq.
  assert (Hno : forall y, is_right y = true -> (y = LRef a \/ forall e, y <> LRef e) -> has (led_all x) y = false).
  { intros y Hy Hc. destruct (has (led_all x) y) eqn:E; [|reflexivity]. apply has_in in E.
    destruct (Hl y E Hy) as (e & -> & He). destruct Hc as [Hc|Hc]; [injection Hc as ->; congruence|exfalso; now apply (Hc e)]. }
  repeat split; try (apply Hno; [reflexivity|right; discriminate]).
  unfold holders. destruct (count_occ N.eq_dec (all_queued (c_s x)) a) eqn:E1.
  - specialize (Hno (LRef a) eq_refl (or_introl eq_refl)). destruct (cnt (led_all x) (LRef a)) eqn:E2; [reflexivity|].
    assert (has (led_all x) (LRef a) = true) by (apply has_in, cnt_in; lia). congruence.
  - assert (In a (all_queued (c_s x))) by (apply (count_occ_In N.eq_dec); lia). apply Hq in H0. congruence.
Qed.
Lemma drained x i q : reachable x ->
  (forall e, In e (all_queued (c_s x)) -> is_static statics e = true) ->
  (forall y, In y (led_all x) -> is_right y = true -> exists e, y = LRef e /\ is_static statics e = true) ->
  (i < length pools)%nat -> nth_error (k_ep (c_s x)) i = Some q -> mp_nfree q = mp_nblocks q.
Proof. intros H. apply drained_inv. now apply reach_inv. Qed.

Lemma statics_intact_inv x e sig : CInv x -> In (e, sig) statics ->
  k_mem (c_s x) e = Some (CEvt sig 0 0) /\ mem0 e = Some (CEvt sig 0 0) /\
  forall j, (j < length pools)%nat -> ~ free_block (c_s x) j e.
Proof.
  intros H He. split; [|split].
  - eapply km_stat; [apply (ki_mem _ _ _ _ _ _ _ _ _ (ci_k _ _ _ _ _ _ _ _ H))|exact He].
  - now apply (so_static _ _ _ _ _ _ _ SO).
  - apply (proj1 (no_use_after_free_inv x H)). left. apply is_static_stat. now exists sig.
Qed.
Lemma statics_intact x e sig : reachable x -> In (e, sig) statics ->
  k_mem (c_s x) e = Some (CEvt sig 0 0) /\ mem0 e = Some (CEvt sig 0 0) /\
  forall j, (j < length pools)%nat -> ~ free_block (c_s x) j e.
Proof. intros H. apply statics_intact_inv. now apply reach_inv. Qed.

(** *** C26 *)
Lemma in_order x o : reachable x ->
  log_queue o (c_log x) = Some (ao_view (c_s x) o).
Proof. intros H. apply (ci_log _ _ _ _ _ _ _ _ (reach_inv x H)). Qed.
End P.

Lemma log_queue_snoc o log x : log_queue o (log ++ [x]) = log_step o (log_queue o log) x.
Proof. unfold log_queue. now rewrite fold_left_app. Qed.
Lemma dispatched_snoc o log x : dispatched o (log ++ [x]) =
  dispatched o log ++ match x with EU (UDispatch o' e) => if Nat.eqb o o' then [e] else [] | _ => [] end.
Proof. unfold dispatched. rewrite map_app, concat_app. cbn [map concat]. now rewrite app_nil_r. Qed.
Lemma accepted_snoc o log x : accepted o (log ++ [x]) =
  accepted o log ++ match x with EL (KPut _ o' e) => if Nat.eqb o o' then [e] else [] | _ => [] end.
Proof. unfold accepted. rewrite map_app, concat_app. cbn [map concat]. now rewrite app_nil_r. Qed.

Lemma log_perm o log q : log_queue o log = Some q ->
  Permutation (accepted o log) (dispatched o log ++ q).
Proof.
  revert q. induction log as [|x log IH] using rev_ind; intros q; [intros E; injection E as <-; constructor|].
  rewrite log_queue_snoc, dispatched_snoc, accepted_snoc.
  destruct (log_queue o log) as [q0|]; [|discriminate]. specialize (IH q0 eq_refl). cbn [log_step].
  destruct x as [[]|[]]; rewrite ?app_nil_r; try (intros E; injection E as <-; exact IH).
  - destruct (Nat.eqb o o0); rewrite ?app_nil_r; intros E; injection E as <-; [|exact IH].
    rewrite IH. destruct lifo.
    + rewrite <- app_assoc. apply Permutation_app_head. symmetry. apply Permutation_cons_append.
    + now rewrite app_assoc.
  - destruct (Nat.eqb o o0); rewrite ?app_nil_r; [|intros E; injection E as <-; exact IH].
    destruct q0 as [|y t]; [discriminate|]. destruct (N.eqb_spec y e) as [->|]; [|discriminate].
    intros E; injection E as <-. rewrite <- app_assoc. exact IH.
Qed.

Lemma log_fifo o log q : no_lifo o log -> log_queue o log = Some q ->
  accepted o log = dispatched o log ++ q.
Proof.
  revert q. induction log as [|x log IH] using rev_ind; intros q Hn; [intros E; injection E as <-; reflexivity|].
  rewrite log_queue_snoc, dispatched_snoc, accepted_snoc.
  assert (Hn' : no_lifo o log) by (intros e He; apply (Hn e), in_app_iff; auto).
  destruct (log_queue o log) as [q0|]; [|discriminate]. specialize (IH q0 Hn' eq_refl). cbn [log_step].
  destruct x as [[]|[]]; rewrite ?app_nil_r; try (intros E; injection E as <-; exact IH).
  - destruct (Nat.eqb_spec o o0) as [<-|]; rewrite ?app_nil_r; intros E; injection E as <-; [|exact IH].
    destruct lifo; [exfalso; apply (Hn e), in_app_iff; right; now left|].
    now rewrite IH, app_assoc.
  - destruct (Nat.eqb o o0); rewrite ?app_nil_r; [|intros E; injection E as <-; exact IH].
    destruct q0 as [|y t]; [discriminate|]. destruct (N.eqb_spec y e) as [->|]; [|discriminate].
    intros E; injection E as <-. rewrite <- app_assoc. exact IH.
Qed.
