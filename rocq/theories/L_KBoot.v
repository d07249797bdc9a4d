(** Proofs: start-up establishes the kernel invariant. *)
From Verif Require Import Base L_Base M_RdyGrp S_RdyGrp L_RdyGrp M_Queue S_Queue L_Queue
  M_MemPool S_MemPool L_MemPool M_Kernel S_Kernel L_KMem L_KQueue L_Kernel L_KRun.
Local Open Scope N_scope.

Definition pool_lists (pools : list (N * N * N)) (rs : list N) : list (list N) :=
  map (fun pr => pool_blocks (fst pr) (snd pr)) (combine pools rs).

Lemma nth_combine {A B} (l1 : list A) (l2 : list B) i x y :
  nth_error (combine l1 l2) i = Some (x, y) <-> nth_error l1 i = Some x /\ nth_error l2 i = Some y.
Proof.
  revert l2 i. induction l1 as [|a l1 IH]; intros l2 i.
  - destruct i; simpl; split; try discriminate; intros [E _]; discriminate.
  - destruct l2 as [|b l2].
    + destruct i; simpl; split; try discriminate; intros [_ E]; discriminate.
    + destruct i; simpl; [|apply IH]. split; [intros E; injection E as -> ->; auto|intros [E1 E2]; congruence].
Qed.

Section B.
Context (c : kcfg) (mem0 : @mem cell) (statics : list (N * N)) (prios : list N)
        (dqs : list (list (option N) * nat)) (pools : list (N * N * N)) (rs : list N).
Context (SO : sys_ok c mem0 statics prios dqs pools rs).
Notation PB := (pool_lists pools rs).

Lemma PB_len : length PB = length pools.
Proof. unfold pool_lists. rewrite map_length, combine_length, (so_len _ _ _ _ _ _ _ SO). lia. Qed.

Lemma PB_nth i B : nth_error PB i = Some B <->
  exists a n b r, nth_error pools i = Some (a, n, b) /\ nth_error rs i = Some r /\ B = blocks a r (N.to_nat (n / r)).
Proof.
  unfold pool_lists. rewrite nth_error_map. split.
  - destruct (nth_error (combine pools rs) i) as [[[[a n] b] r]|] eqn:E; [|discriminate].
    cbn [option_map fst snd pool_blocks]. intros EB. injection EB as <-.
    apply nth_combine in E. exists a, n, b, r. tauto.
  - intros (a & n & b & r & H1 & H2 & ->). rewrite (proj2 (nth_combine _ _ _ _ _) (conj H1 H2)). reflexivity.
Qed.

Lemma blk_area a n b r x : pool_ok c mem0 (a, n, b) r -> In x (blocks a r (N.to_nat (n / r))) ->
  a <= x < a + n /\ x <> 0.
Proof.
  intros ((Hs & Hss & Hb & Hr & Hrs & Hrn) & _) Hx. apply in_blocks in Hx. destruct Hx as (i & Hi & ->).
  destruct (so_mp _ _ _ _ _ _ _ SO) as [Hp _].
  assert (Hr0 : psz (k_mp c) <= r) by (destruct Hr as ((k & Hk & ->) & _); nia).
  assert (Hnr : n / r * r <= n) by (rewrite N.mul_comm; apply N.mul_div_le; lia).
  assert (N.of_nat i + 1 <= n / r) by lia. nia.
Qed.

Lemma boot_pb_ok : pb_ok c statics PB.
Proof.
  assert (Hin : forall i a, inpool PB i a -> exists s n b r, nth_error pools i = Some (s, n, b) /\
     nth_error rs i = Some r /\ s <= a < s + n /\ a <> 0).
  { intros i a (B & HB & Ha). apply PB_nth in HB. destruct HB as (s & n & b & r & H1 & H2 & ->).
    exists s, n, b, r. split; [exact H1|]. split; [exact H2|]. eapply blk_area; [|exact Ha]. eapply so_pool; eauto. }
  constructor.
  - apply (so_mp _ _ _ _ _ _ _ SO).
  - rewrite PB_len. pose proof (so_npool _ _ _ _ _ _ _ SO). lia.
  - intros i j a Hi Hj. apply Hin in Hi, Hj. destruct Hi as (s & n & b & r & H1 & _ & H2 & _).
    destruct Hj as (s' & n' & b' & r' & H1' & _ & H2' & _).
    destruct (Nat.eq_dec i j) as [|Hne]; [assumption|exfalso].
    destruct (so_disj _ _ _ _ _ _ _ SO _ _ _ _ _ _ _ _ H1 H1' Hne); lia.
  - intros i a Hi. apply Hin in Hi. destruct Hi as (s & n & b & r & _ & _ & _ & H). exact H.
  - intros i a Hi [sig Hs]. apply Hin in Hi. destruct Hi as (s & n & b & r & H1 & _ & H2 & _).
    destruct (so_static _ _ _ _ _ _ _ SO _ _ Hs) as (_ & _ & H3). specialize (H3 _ _ _ _ H1). lia.
  - intros e [sig Hs]. now apply (so_static _ _ _ _ _ _ _ SO) in Hs.
Qed.

Definition k0 : kst := kst0 c mem0 prios dqs.

Record BInv (k : nat) (s : kst) : Prop := {
  b_next : k_next s = N.of_nat k;
  b_mlen : length (k_mgr s) = k_maxpool c;
  b_mgr : forall i, (i < k)%nat -> nth_error (k_mgr s) i = Some (Some i);
  b_elen : length (k_ep s) = k_maxpool c;
  b_ep : forall i B r, (i < k)%nat -> nth_error PB i = Some B -> nth_error rs i = Some r ->
     exists p, nth_error (k_ep s) i = Some p /\ mp_inv get_link (k_mp c) p (k_mem s) B [] /\ mp_bsize p = r /\
       mp_nblocks p <> 0;
  b_zero : forall i, (k <= i < k_maxpool c)%nat -> nth_error (k_ep s) i = Some mp_zero;
  b_map : forall x, k_mem s x = None <-> mem0 x = None;
  b_mem : forall x, (forall i a n b, (i < k)%nat -> nth_error pools i = Some (a, n, b) -> x < a \/ a + n <= x) ->
     k_mem s x = mem0 x;
  b_out : forall x, ~ (exists i, inpool PB i x) -> k_mem s x = mem0 x;
  b_rest : (k_rg s, k_sp s, k_ao s, k_dq s, k_ch s) = (k_rg k0, k_sp k0, k_ao k0, k_dq k0, k_ch k0) }.

Lemma find_unused_at l : forall i k, (k < length l)%nat ->
  (forall j p, (j < k)%nat -> nth_error l j = Some p -> mp_nblocks p <> 0) ->
  (exists p, nth_error l k = Some p /\ mp_nblocks p = 0) ->
  find_unused l i = Some (i + k)%nat.
Proof.
  induction l as [|p l IH]; intros i k Hk Hn (p0 & Hp0 & Hz); [simpl in Hk; lia|].
  cbn [find_unused]. destruct k as [|k].
  - injection Hp0 as ->. rewrite Hz. change (0 =? 0) with true. cbv iota. f_equal. lia.
  - pose proof (Hn 0%nat p ltac:(lia) eq_refl) as H0. apply N.eqb_neq in H0. rewrite H0.
    rewrite (IH (S i) k); [f_equal; lia|simpl in Hk; lia| |eauto].
    intros j q Hj Hq. apply (Hn (S j) q); [lia|exact Hq].
Qed.

Lemma boot_step k s a n b r :
  BInv k s -> nth_error pools k = Some (a, n, b) -> nth_error rs k = Some r ->
  exists s', fwk_registerEvtPool c s a n b = Ok s' /\ BInv (S k) s'.
Proof.
  intros HB Hk Hr. destruct HB as [H1 H2 H3 H4 H5 H6 H7 H8 H8o H9].
  pose proof (so_pool _ _ _ _ _ _ _ SO _ _ _ Hk Hr) as Hok. pose proof Hok as (Hargs & Hmap & Hnb & Hes & Hbs).
  pose proof (so_npool _ _ _ _ _ _ _ SO) as Hnp.
  assert (Hkl : (k < length pools)%nat) by (eapply nth_some_lt; eauto).
  unfold fwk_registerEvtPool. rewrite H1.
  replace (N.of_nat k + 1 <=? N.of_nat (k_maxpool c)) with true by lia. rewrite rassert_true. cbn [bind].
  unfold evtPool_getPool.
  rewrite (find_unused_at (k_ep s) 0 k); cycle 1.
  { lia. }
  { intros j p Hj Hp.
    destruct (nth_error PB j) as [B|] eqn:EB; [|apply nth_error_None in EB; rewrite PB_len in EB; lia].
    destruct (nth_error rs j) as [r0|] eqn:Er;
      [|apply nth_error_None in Er; rewrite (so_len _ _ _ _ _ _ _ SO) in Er; lia].
    destruct (H5 j B r0 Hj EB Er) as (p' & Hp' & _ & _ & Hne). congruence. }
  { exists mp_zero. split; [apply H6; lia|reflexivity]. }
  rewrite Nat.add_0_l.
  destruct Hargs as (Hs & Hss & Hb & Hru & Hrs & Hrn).
  assert (Hargs : mp_args_ok (k_mp c) a n b r) by (repeat split; try assumption; apply Hru).
  replace (u16 n) with n by (unfold u16; rewrite N.mod_small; lia).
  rewrite (N.mod_small b (k_es_mod c)) by assumption. rewrite (N.mod_small b) by assumption.
  assert (Hmap' : mapped (k_mem s) a n). { intros x Hx. rewrite H7. now apply Hmap. }
  destruct (mp_init_spec CLink get_link (k_mp c) get_mk_cell (so_mp _ _ _ _ _ _ _ SO) (k_mem s) a n b r Hargs Hmap')
    as (p & m' & E & Ep & Hc & Hfr & Hd).
  destruct (mp_init_inv CLink get_link (k_mp c) get_mk_cell (so_mp _ _ _ _ _ _ _ SO) (k_mem s) a n b r p m'
     Hargs Hmap' Hnb E) as ([Hinv Hbsz _] & Hnbl & _ & _).
  cbn [ms_pool ms_mem ms_owned] in Hinv, Hbsz.
  rewrite E. cbn [bind]. rewrite wr_lt by lia. cbn [bind]. rewrite rassert_true. cbn [bind].
  cbn [k_mgr set_pools set_mem k_next]. rewrite !H1. rewrite Nat2N.id, wr_lt by lia. cbn [bind].
  eexists. split; [reflexivity|].
  destruct (so_mp _ _ _ _ _ _ _ SO) as [Hpz _].
  assert (Hr0 : psz (k_mp c) <= r) by (destruct Hru as ((q & Hq & ->) & _); nia).
  assert (Hn1 : 1 <= n / r) by (apply N.div_le_lower_bound; lia).
  assert (Hout : forall x, x < a \/ a + n <= x -> m' x = k_mem s x).
  { intros x Hx. apply Hfr. intros Hi. destruct (blk_area _ _ _ _ _ Hok Hi) as [Ha _]. lia. }
  constructor; cbn [k_next k_mgr k_ep k_mem set_pools set_mem].
  - unfold u8. rewrite N.mod_small; lia.
  - now rewrite length_upd.
  - intros i Hi. destruct (Nat.eq_dec k i) as [<-|Hne].
    + now rewrite nth_upd_eq by lia.
    + rewrite nth_upd_ne by auto. apply H3. lia.
  - now rewrite length_upd.
  - intros i B r0 Hi HB Hr0'. destruct (Nat.eq_dec k i) as [<-|Hne].
    + exists p. rewrite nth_upd_eq by lia. split; [reflexivity|].
      assert (r0 = r) by congruence. subst r0.
      apply PB_nth in HB. destruct HB as (a1 & n1 & b1 & r1 & E1 & E2 & ->).
      assert (a1 = a /\ n1 = n /\ r1 = r) by (repeat split; congruence). destruct H as (-> & -> & ->).
      split; [exact Hinv|]. split; [exact Hbsz|]. lia.
    + rewrite nth_upd_ne by auto. destruct (H5 i B r0 ltac:(lia) HB Hr0') as (q & Hq & Hqi & Hqb & Hqn).
      exists q. split; [exact Hq|]. split; [|auto].
      eapply mp_inv_mem; [exact Hqi| |].
      * intros x Hx. rewrite Hd. exact Hx.
      * intros x Hx _. apply Hout. apply PB_nth in HB. destruct HB as (a1 & n1 & b1 & r1 & E1 & E2 & ->).
        destruct (blk_area a1 n1 b1 r1 x) as [Hx1 _]; [eapply so_pool; eauto|exact Hx|].
        destruct (so_disj _ _ _ _ _ _ _ SO _ _ _ _ _ _ _ _ Hk E1 Hne); lia.
  - intros i Hi. rewrite nth_upd_ne by lia. apply H6. lia.
  - intros x. rewrite Hd. apply H7.
  - intros x Hx. rewrite Hout by (apply (Hx k a n b); [lia|exact Hk]). apply H8.
    intros i a1 n1 b1 Hi E1. apply (Hx i a1 n1 b1); [lia|exact E1].
  - intros x Hx. rewrite Hfr; [now apply H8o|]. intros Hi. apply Hx. exists k.
    exists (blocks a r (N.to_nat (n / r))). split; [apply PB_nth; eauto 10|exact Hi].
  - exact H9.
Qed.

Lemma boot_all rest : forall k s, BInv k s -> (forall i, nth_error rest i = nth_error pools (k + i)) ->
  exists s', boot c s rest = Ok s' /\ BInv (k + length rest) s'.
Proof.
  induction rest as [|[[a n] b] rest IH]; intros k s HB Hrest; cbn [boot length].
  - exists s. split; [reflexivity|]. now rewrite Nat.add_0_r.
  - pose proof (Hrest 0%nat) as H0. cbn [nth_error] in H0. rewrite Nat.add_0_r in H0. symmetry in H0.
    destruct (nth_error rs k) as [r|] eqn:Er.
    2:{ apply nth_error_None in Er. apply nth_some_lt in H0. rewrite (so_len _ _ _ _ _ _ _ SO) in Er. lia. }
    destruct (boot_step k s a n b r HB H0 Er) as (s1 & E & HB1). rewrite E. cbn [bind].
    destruct (IH (S k) s1 HB1) as (s' & E' & HB').
    { intros i. specialize (Hrest (S i)). cbn [nth_error] in Hrest. rewrite Hrest. f_equal. lia. }
    exists s'. split; [exact E'|]. replace (k + S (length rest))%nat with (S k + length rest)%nat by lia. exact HB'.
Qed.

Lemma queue_init_view (sto : list (option N)) n sma : q_view (queue_init sto n sma) = [].
Proof. reflexivity. Qed.

Lemma KQ_k0 : KQ c prios (length dqs) (k_ao k0) (k_dq k0) (k_sp k0) (k_rg k0) (k_ch k0).
Proof.
  assert (Hsp : forall i, nth_error (k_sp k0) i = Some None \/ nth_error (k_sp k0) i = None).
  { intros i. destruct (nth_error (k_sp k0) i) as [x|] eqn:E; [left|auto].
    apply nth_error_In in E. apply repeat_spec in E. now subst x. }
  assert (Hao : forall o a, nth_error (k_ao k0) o = Some a -> exists p, a = mkAo p (queue_init [] 0 (Some p))).
  { intros o a Ho. apply nth_error_In in Ho. apply in_map_iff in Ho. destruct Ho as (p & <- & _). eauto. }
  constructor.
  - unfold k0, kst0. cbn [k_ao]. rewrite map_map. cbn [ao_prio]. apply map_id.
  - unfold k0, kst0. cbn [k_sp]. apply repeat_length.
  - intros p o Hp. destruct (Hsp p); congruence.
  - intros o a Ho. destruct (Hao o a Ho) as [p ->]. reflexivity.
  - intros o a Ho Hr. unfold reg in Hr. destruct (Hsp (N.to_nat (ao_prio a))); congruence.
  - intros o a Ho _. destruct (Hao o a Ho) as [p ->]. reflexivity.
  - intros d q Hd. apply nth_error_In in Hd. apply in_map_iff in Hd. destruct Hd as ([sto n] & <- & Hd).
    split; [reflexivity|]. cbn [fst snd]. pose proof (so_dq _ _ _ _ _ _ _ SO _ _ Hd).
    eapply (q_good_rel sto _ []). apply queue_init_rel; lia.
  - unfold k0, kst0. cbn [k_dq]. apply map_length.
  - eapply rg_rel_ext; [|apply rg_init_rel]. intros p. unfold rdy.
    destruct (Hsp (N.to_nat p)) as [E|E]; now rewrite E.
  - unfold k0, kst0. cbn [k_ch]. apply repeat_length.
  - intros i g Hg. apply nth_error_In in Hg. apply repeat_spec in Hg. subst g. eexists. apply rg_init_rel.
Qed.

Theorem start_ok : exists s, start c mem0 prios dqs pools = Ok s /\
  KInv c statics PB mem0 rs prios (length dqs) s (fun _ => 0%nat) /\
  (forall o, ao_view s o = []) /\ all_queued s = [].
Proof.
  assert (HB0 : BInv 0 k0).
  { constructor; unfold k0, kst0; cbn [k_next k_mgr k_ep k_mem]; try reflexivity; try (intros; lia).
    - apply repeat_length.
    - apply repeat_length.
    - intros i Hi. unfold evtPool_init. apply nth_error_repeat. lia. }
  destruct (boot_all pools 0 k0 HB0) as (s & E & HB); [reflexivity|].
  exists s. split; [exact E|]. rewrite Nat.add_0_l in HB. destruct HB as [H1 H2 H3 H4 H5 H6 H7 H8 H8o H9].
  assert (E1 : k_rg s = k_rg k0 /\ k_sp s = k_sp k0 /\ k_ao s = k_ao k0 /\ k_dq s = k_dq k0 /\ k_ch s = k_ch k0).
  { injection H9. auto. }
  destruct E1 as (Eg & Es & Ea & Ed & Ec).
  assert (Hview : forall o a, nth_error (k_ao s) o = Some a -> q_view (ao_q a) = []).
  { intros o a Ho. rewrite Ea in Ho. apply nth_error_In in Ho. apply in_map_iff in Ho. destruct Ho as (p & <- & _). reflexivity. }
  assert (Hq : all_queued s = []).
  { destruct (all_queued s) as [|e l] eqn:Eq; [reflexivity|exfalso].
    assert (Hi : In e (all_queued s)) by (rewrite Eq; now left). apply in_all_queued in Hi.
    destruct Hi as [(o & a & Ho & Hi)|(d & q & Hd & Hi)].
    - rewrite (Hview o a Ho) in Hi. destruct Hi.
    - rewrite Ed in Hd. apply nth_error_In in Hd. apply in_map_iff in Hd. destruct Hd as (x & <- & _). destruct Hi. }
  split; [|split; [|exact Hq]].
  - constructor.
    + rewrite PB_len. exact H1.
    + rewrite PB_len. exact H3.
    + intros i p Hi Hp. rewrite PB_len in Hi.
      destruct (nth_error PB i) as [B|] eqn:EB; [|apply nth_error_None in EB; rewrite PB_len in EB; lia].
      destruct (nth_error rs i) as [r|] eqn:Er;
        [|apply nth_error_None in Er; rewrite (so_len _ _ _ _ _ _ _ SO) in Er; lia].
      destruct (H5 i B r Hi EB Er) as (p' & Hp' & _ & Hbs & _). congruence.
    + assert (HT : forall a, tot s (fun _ => 0%nat) a = 0%nat).
      { intros a. unfold tot, refs. rewrite Hq. reflexivity. }
      constructor; try (intros; rewrite ?HT in *; lia).
      * intros i B HB. assert (Hi : (i < length pools)%nat) by (rewrite <- PB_len; eapply nth_some_lt; eauto).
        destruct (nth_error rs i) as [r|] eqn:Er;
          [|apply nth_error_None in Er; rewrite (so_len _ _ _ _ _ _ _ SO) in Er; lia].
        destruct (H5 i B r Hi HB Er) as (p & Hp & Hinv & _). exists p, []. split; [exact Hp|]. split; [exact Hinv|].
        intros a Ha. left. rewrite HT. auto.
      * intros e sig Hs. destruct (so_static _ _ _ _ _ _ _ SO _ _ Hs) as (_ & Hm & Ho).
        rewrite <- Hm. apply H8. intros i a n b _ Hi. eapply Ho; eauto.
      * exact H8o.
    + rewrite Ea, Ed, Es, Eg, Ec. apply KQ_k0.
  - intros o. unfold ao_view. destruct (nth_error (k_ao s) o) as [a|] eqn:Ho; [|reflexivity]. eauto.
Qed.

(** Every execution from start-up. *)
Theorem system_ok : exists s, start c mem0 prios dqs pools = Ok s /\
  forall chs,
    (exists x, crun c statics (conf0 s) chs = Ok x /\ CInv c statics PB mem0 rs prios (length dqs) x) \/
    (exists f, crun c statics (conf0 s) chs = Fault f /\ resource_fault f).
Proof.
  destruct start_ok as (s & E & HI & Hv & Hq). exists s. split; [exact E|]. intros chs.
  apply crun_inv; [exact boot_pb_ok|apply (so_max _ _ _ _ _ _ _ SO)|apply (so_asrt _ _ _ _ _ _ _ SO)|].
  apply conf0_inv; auto using boot_pb_ok; apply SO.
Qed.
End B.
