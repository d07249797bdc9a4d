(** Proofs: the scheduler loop. *)
From Verif Require Import Base L_Base M_RdyGrp S_RdyGrp L_RdyGrp M_Queue S_Queue L_Queue
  M_MemPool S_MemPool L_MemPool M_Kernel S_Kernel L_KMem L_KQueue L_Kernel L_KRun L_KBoot L_KProps L_KSeq.
Local Open Scope N_scope.

Section T.
Context (c : kcfg) (mem0 : @mem cell) (statics : list (N * N)) (prios : list N)
  (dqs : list (list (option N) * nat)) (pools : list (N * N * N)) (rs : list N).
Context (SO : sys_ok c mem0 statics prios dqs pools rs).
Notation PB := (pool_lists pools rs).
Notation KInv := (KInv c statics PB mem0 rs prios (length dqs)).
Notation CInv := (CInv c statics PB mem0 rs prios (length dqs)).
Notation reachable := (reachable c mem0 statics prios dqs pools).
Notation OK := (OK c mem0 statics prios dqs pools rs SO).
Notation Hmax := (Hmax c mem0 statics prios dqs pools rs SO).
Notation Hasrt := (Hasrt c mem0 statics prios dqs pools rs SO).

Lemma not_over s l : (forall a, is_static statics a = false -> (holders s l a <= 255)%nat) -> over statics s l = false.
Proof.
  intros H. unfold over. apply not_true_is_false. intros E. apply existsb_exists in E. destruct E as (a & _ & E).
  apply andb_true_iff in E. destruct E as [E1 E2]. apply negb_true_iff in E1. apply Nat.ltb_lt in E2.
  specialize (H a E1). lia.
Qed.
Lemma reach_bnd x a : reachable x -> is_static statics a = false -> (holders (c_s x) (led_all x) a <= 255)%nat.
Proof.
  intros H Ha. rewrite <- tot_holders. apply (ci_b _ _ _ _ _ _ _ _ (reach_inv _ _ _ _ _ _ _ SO x H)).
  intros Hs. apply is_static_stat in Hs. congruence.
Qed.
Lemma reach_run x chs x' : reachable x -> crun c statics x chs = Ok x' -> reachable x'.
Proof.
  revert x. induction chs as [|h t IH]; intros x H E; cbn [crun] in E; [congruence|].
  destruct (cstep c statics x h) as [y|] eqn:Ey; [|discriminate]. cbn [bind] in E.
  eapply IH; [|exact E]. eapply reach_step; eauto.
Qed.
Lemma crun_app x a b : crun c statics x (a ++ b) = do y <- crun c statics x a; crun c statics y b.
Proof.
  revert x. induction a as [|h t IH]; intros x; cbn [app crun bind]; [reflexivity|].
  destruct (cstep c statics x h); cbn [bind]; [apply IH|reflexivity].
Qed.

Lemma step_atom x isr led f s' labs p' : c_stk x = [mkF isr led (Atom f)] -> f (c_s x) = Ok (s', labs, p') ->
  (forall a, is_static statics a = false -> (holders s' (fold_left led_step labs led ++ c_led x) a <= 255)%nat) ->
  stranded s' = false ->
  cstep c statics x ChGo =
    Ok (mkC s' (c_led x) [mkF isr (fold_left led_step labs led) p'] (c_log x ++ map EL labs ++ user_of p')).
Proof.
  intros Hs E H Hn. cbn [cstep]. rewrite Hs. cbn [f_p f_led f_isr]. rewrite E. cbn [map concat app].
  rewrite not_over by exact H. rewrite Hn. reflexivity.
Qed.
Lemma crun_cons x h t y : cstep c statics x h = Ok y -> crun c statics x (h :: t) = crun c statics y t.
Proof. intros E. cbn [crun]. now rewrite E. Qed.

Definition at_sched (x : conf) : Prop := c_stk x = [mkF false [] (sched_once c)].

Lemma concat_upd_len {A B} (f : A -> list B) l i x y : nth_error l i = Some x ->
  (length (concat (map f (upd l i y))) + length (f x) = length (concat (map f l)) + length (f y))%nat.
Proof.
  revert i. induction l as [|h t IH]; intros [|i] E; try discriminate; cbn [nth_error] in E.
  - injection E as ->. cbn [upd map concat]. rewrite !app_length. lia.
  - specialize (IH i E). cbn [upd map concat]. rewrite !app_length. lia.
Qed.

(** *** One turn *)
Lemma sched_idle x : reachable x -> at_sched x -> (forall o, ao_view (c_s x) o = []) ->
  crun c statics x [ChGo] =
    Ok (mkC (c_s x) (c_led x) [mkF false [] (User UIdle (Ret 0))] (c_log x ++ [EU UIdle])).
Proof.
  intros H Hs Hv. pose proof (reach_inv _ _ _ _ _ _ _ SO x H) as HC.
  pose proof (ki_q _ _ _ _ _ _ _ _ _ (ci_k _ _ _ _ _ _ _ _ HC)) as HQ.
  cbn [crun cstep]. rewrite Hs. cbn [f_p sched_once].
  destruct (rg_isReady (k_rg (c_s x))) eqn:Er.
  - destruct (KQ_highest c prios (length dqs) Hmax Hasrt _ _ _ _ _ HQ Er) as (p & o & a & _ & _ & Ho & _ & _ & Hne & _).
    exfalso. apply Hne. specialize (Hv o). unfold ao_view in Hv. now rewrite Ho in Hv.
  - cbn [fold_left map concat f_led app].
    rewrite not_over; [now rewrite (KQ_stranded c prios (length dqs) _ HQ)|]. intros a Ha. pose proof (reach_bnd x a H Ha) as Hb. unfold led_all in Hb. rewrite Hs in Hb. exact Hb.
Qed.

Lemma sched_turn x o0 : reachable x -> at_sched x -> ao_view (c_s x) o0 <> [] ->
  exists o e w a s', ao_view (c_s x) o = e :: w /\ nth_error (k_ao (c_s x)) o = Some a /\
    (forall o' a', nth_error (k_ao (c_s x)) o' = Some a' -> ao_view (c_s x) o' <> [] -> ao_prio a <= ao_prio a') /\
    crun c statics x [ChGo; ChGo] =
      Ok (mkC s' (c_led x) [mkF false [LRef e] (User (UDispatch o e) (fwk_gc c e))]
           (c_log x ++ [EL (KSel o); EL (KGet o e); EU (UDispatch o e)])) /\
    (forall o', ao_view s' o' = if Nat.eqb o' o then w else ao_view (c_s x) o') /\
    (forall d, dq_view s' d = dq_view (c_s x) d) /\ pending (c_s x) = S (pending s').
Proof.
  intros H Hs Hne0. pose proof (reach_inv _ _ _ _ _ _ _ SO x H) as HC.
  pose proof (ki_q _ _ _ _ _ _ _ _ _ (ci_k _ _ _ _ _ _ _ _ HC)) as HQ. set (s := c_s x) in *.
  destruct (rg_isReady (k_rg s)) eqn:Er.
  2:{ exfalso. apply Hne0. unfold ao_view. destruct (nth_error (k_ao s) o0) as [a|] eqn:Ea; [|reflexivity].
      eapply KQ_idle; eauto using Hmax, Hasrt. }
  destruct (KQ_highest c prios (length dqs) Hmax Hasrt _ _ _ _ _ HQ Er) as (p & o & a & E1 & E2 & Ho & Ep & Hreg & Hne & Hleast).
  destruct (q_view (ao_q a)) as [|e w] eqn:Hv; [congruence|].
  destruct (KQ_get c prios (length dqs) Hmax Hasrt _ _ _ _ _ o a e w HQ Ho Hreg Hv) as (q' & g' & E & Hv' & _ & HQ').
  set (s' := set_rg (set_ao s (upd (k_ao s) o (mkAo (ao_prio a) q'))) g').
  exists o, e, w, a, s'.
  split; [unfold ao_view; now rewrite Ho|]. split; [exact Ho|]. split.
  { intros o' a' Ho' Hv2. rewrite Ep. apply (Hleast o' a' Ho'). unfold ao_view in Hv2. now rewrite Ho' in Hv2. }
  assert (Hb : forall y, is_static statics y = false -> (holders s (c_led x) y <= 255)%nat).
  { intros y Hy. pose proof (reach_bnd x y H Hy) as Hb. unfold led_all in Hb. rewrite Hs in Hb. exact Hb. }
  assert (Hrefs : forall y, (refs s' y + (if N.eq_dec e y then 1 else 0) = refs s y)%nat).
  { intros y. pose proof (refs_ao _ s o a q' y Ho eq_refl) as H1. rewrite Hv, Hv' in H1. cbn [count_occ] in H1.
    change (refs s' y) with (refs (set_ao s (upd (k_ao s) o (mkAo (ao_prio a) q'))) y).
    destruct (N.eq_dec e y); lia. }
  split; [|split; [|split]].
  - erewrite crun_cons.
    2:{ eapply step_atom; [exact Hs| | |exact (KQ_stranded c prios (length dqs) _ HQ)]; [fold s; cbv beta; rewrite Er, E1; cbn [bind]; rewrite E2; cbn [bind]; reflexivity|].
        intros y Hy. specialize (Hb y Hy). cbn [fold_left led_step app]. unfold holders in *. rewrite cnt_cons.
        destruct litem_dec; [discriminate|exact Hb]. }
    erewrite crun_cons.
    2:{ eapply step_atom; [reflexivity| | |exact (KQ_stranded c prios (length dqs) s' HQ')].
        - cbn [c_s]. cbv beta. fold s. rewrite (proj2 (rd_ok _ _ _) Ho). cbn [bind].
          rewrite E. cbn [bind]. rewrite wr_lt by (eapply nth_some_lt; eauto). cbn [bind]. rewrite rassert_true. cbn [bind].
          reflexivity.
        - fold s'. intros y Hy. specialize (Hb y Hy). cbn [fold_left led_step filter is_right app c_led]. unfold holders in *.
          rewrite cnt_cons. change (count_occ N.eq_dec (all_queued s') y) with (refs s' y).
          change (count_occ N.eq_dec (all_queued s) y) with (refs s y) in Hb.
          specialize (Hrefs y). destruct (N.eq_dec e y), litem_dec; try congruence; lia. }
    cbn [crun c_led c_log user_of app map fold_left led_step filter is_right sma_get]. fold s'. rewrite <- app_assoc. reflexivity.
  - intros o'. unfold ao_view, s'. cbn [k_ao set_rg set_ao]. destruct (Nat.eqb_spec o' o) as [->|Hn].
    + rewrite nth_upd_eq by (eapply nth_some_lt; eauto). exact Hv'.
    + now rewrite nth_upd_ne by auto.
  - intros d. reflexivity.
  - unfold pending, s'. cbn [k_ao set_rg set_ao].
    pose proof (concat_upd_len (fun a => q_view (ao_q a)) (k_ao s) o a (mkAo (ao_prio a) q') Ho) as Hl.
    cbv beta in Hl. cbn [ao_q] in Hl. rewrite Hv, Hv' in Hl. cbn [length] in Hl. fold s. lia.
Qed.

(** *** After the handler returned *)
Lemma gc_turn x o e : reachable x ->
  c_stk x = [mkF false [LRef e] (User (UDispatch o e) (fwk_gc c e))] ->
  exists n x' labs, crun c statics x (repeat ChGo n) = Ok x' /\ at_sched x' /\ same_queues (c_s x) (c_s x') /\
    c_log x' = c_log x ++ map EL labs.
Proof.
  intros H Hs. pose proof (reach_inv _ _ _ _ _ _ _ SO x H) as HC. pose proof (ci_k _ _ _ _ _ _ _ _ HC) as HI.
  pose proof (reach_bnd x) as Hb0.
  assert (El : led_all x = LRef e :: c_led x) by (unfold led_all; rewrite Hs; reflexivity). rewrite El in *.
  set (s := c_s x) in *. set (l := LRef e :: c_led x) in *.
  assert (Hb : forall y, is_static statics y = false -> (holders s l y <= 255)%nat) by (intros y Hy; now apply Hb0).
  assert (Hstr : stranded s = false) by (eapply KInv_stranded; exact HI).
  clear Hb0. assert (Hin : In (LRef e) l) by now left.
  assert (Hpos : (0 < holders s l e)%nat).
  { unfold holders, l. rewrite cnt_cons. destruct litem_dec; [lia|congruence]. }
  (* the handler returns *)
  assert (E1 : cstep c statics x ChGo = Ok (mkC s (c_led x) [mkF false [LRef e] (fwk_gc c e)] (c_log x))).
  { cbn [cstep]. rewrite Hs. cbn [f_p f_isr f_led fwk_gc user_of]. now rewrite app_nil_r. }
  destruct (held_event c mem0 statics prios dqs pools rs s l e HI Hpos) as [Hst|[i Hbk]].
  - destruct (gc_static c mem0 statics prios dqs pools rs SO s e ltac:(eauto) Hst) as [sig Eh].
    exists 3%nat. eexists. exists []. cbn [repeat]. rewrite (crun_cons _ _ _ _ E1).
    erewrite crun_cons.
    2:{ eapply step_atom; [reflexivity| | |exact Hstr]; [cbn [c_s]; cbv beta; rewrite Eh; cbn [bind]; reflexivity|exact Hb]. }
    change (0 =? 0) with true. cbv iota. erewrite crun_cons; [|reflexivity]. cbn [crun].
    split; [reflexivity|]. split; [reflexivity|]. split; [repeat split|]. cbn [c_log map user_of]. now rewrite !app_nil_r.
  - assert (Hns : is_static statics e = false).
    { destruct (is_static statics e) eqn:Es; [|reflexivity]. apply is_static_stat in Es. exfalso.
      eapply (pb_stat _ _ _ OK); [apply inpool_block; exact Hbk|exact Es]. }
    assert (Hb' : forall y, is_static statics y = false -> (holders s (c_led x) y <= 255)%nat).
    { intros y Hy. specialize (Hb y Hy). unfold holders, l in Hb. rewrite cnt_cons in Hb. unfold holders. lia. }
    destruct (Nat.eq_dec (holders s l e) 1) as [E|E].
    + destruct (gc_last c mem0 statics prios dqs pools rs SO s l e i HI Hin Hbk E)
        as ((sig & Eh) & Em & Hlt & Hi255 & _ & p & p' & m' & Hp & Ep & _ & _ & _ & _).
      set (s' := set_pools (set_mem s m') (upd (k_ep s) i p') (k_mgr s) (k_next s)) in *.
      exists 5%nat. eexists. exists [KDead i e; KFree i e]. cbn [repeat]. rewrite (crun_cons _ _ _ _ E1).
      erewrite crun_cons.
      2:{ eapply step_atom; [reflexivity| | |exact Hstr]; [cbn [c_s]; cbv beta; rewrite Eh; cbn [bind]; reflexivity|exact Hb]. }
      change (1 =? 0) with false. cbv iota.
      erewrite crun_cons.
      2:{ eapply step_atom; [reflexivity| | |].
          - cbn [c_s]. cbv beta. rewrite Eh. cbn [bind]. change (1 <? 1) with false. cbv iota zeta.
            rewrite u8_idx by exact Hi255.
            replace (N.of_nat i <? k_next s) with true by (symmetry; now apply N.ltb_lt).
            rewrite rassert_true. cbn [bind]. rewrite Nat2N.id, Em. cbn [bind]. reflexivity.
          - intros y Hy. specialize (Hb' y Hy). cbn [fold_left led_step rem1 app c_led].
            destruct (litem_dec (LRef e) (LRef e)) as [_|]; [|congruence]. unfold holders in *. cbn [app]. rewrite cnt_cons.
            destruct litem_dec; [discriminate|exact Hb'].
          - exact Hstr. }
      cbn [fold_left led_step rem1]. destruct (litem_dec (LRef e) (LRef e)) as [_|]; [|congruence].
      erewrite crun_cons.
      2:{ eapply step_atom; [reflexivity| | |].
          - cbn [c_s]. cbv beta. rewrite Ep. cbn [bind]. reflexivity.
          - intros y Hy. specialize (Hb' y Hy). cbn [fold_left led_step rem1 app c_led].
            destruct (litem_dec (LDead i e) (LDead i e)) as [_|]; [exact Hb'|congruence].
          - exact Hstr. }
      cbn [fold_left led_step rem1]. destruct (litem_dec (LDead i e) (LDead i e)) as [_|]; [|congruence].
      erewrite crun_cons; [|reflexivity]. cbn [crun].
      split; [reflexivity|]. split; [reflexivity|]. split; [repeat split|]. cbn [c_log map user_of app].
      rewrite !app_nil_r, <- app_assoc. reflexivity.
    + destruct (gc_more c mem0 statics prios dqs pools rs SO s l e i HI Hin Hbk) as (sig & m' & Eh & Ew & _ & _).
      { specialize (Hb e Hns). lia. }
      exists 4%nat. eexists. exists [KDec e]. cbn [repeat]. rewrite (crun_cons _ _ _ _ E1).
      erewrite crun_cons.
      2:{ eapply step_atom; [reflexivity| | |exact Hstr]; [cbn [c_s]; cbv beta; rewrite Eh; cbn [bind]; reflexivity|exact Hb]. }
      destruct (N.eqb_spec (N.of_nat (holders s l e)) 0) as [|_]; [lia|].
      erewrite crun_cons.
      2:{ eapply step_atom; [reflexivity| | |].
          - cbn [c_s]. cbv beta. rewrite Eh. cbn [bind].
            replace (1 <? N.of_nat (holders s l e)) with true by (symmetry; apply N.ltb_lt; lia).
            cbv iota. rewrite Ew. cbn [bind]. reflexivity.
          - intros y Hy. specialize (Hb' y Hy). cbn [fold_left led_step rem1 app c_led].
            destruct (litem_dec (LRef e) (LRef e)) as [_|]; [exact Hb'|congruence].
          - exact Hstr. }
      cbn [fold_left led_step rem1]. destruct (litem_dec (LRef e) (LRef e)) as [_|]; [|congruence].
      erewrite crun_cons; [|reflexivity]. cbn [crun].
      split; [reflexivity|]. split; [reflexivity|]. split; [repeat split|]. cbn [c_log map user_of app]. now rewrite !app_nil_r.
Qed.

(** *** Draining *)
Lemma pending_zero s : pending s = 0%nat <-> forall o, ao_view s o = [].
Proof.
  unfold pending, ao_view. induction (k_ao s) as [|a t IH]; cbn [map concat].
  - split; [intros _ [|o]; reflexivity|reflexivity].
  - rewrite app_length. split.
    + intros E [|o]; cbn [nth_error]; [now apply length_zero_iff_nil; lia|]. apply IH. lia.
    + intros Hv. pose proof (Hv 0%nat) as H0. cbn [nth_error] in H0. rewrite H0. cbn [length].
      rewrite (proj2 IH); [reflexivity|]. intros o. exact (Hv (S o)).
Qed.

Lemma dispatches_app l1 l2 : dispatches (l1 ++ l2) = dispatches l1 ++ dispatches l2.
Proof. unfold dispatches. now rewrite map_app, concat_app. Qed.
Lemma dispatches_EL labs : dispatches (map EL labs) = [].
Proof. induction labs as [|x t IH]; [reflexivity|exact IH]. Qed.

Lemma drain : forall n x, reachable x -> at_sched x -> pending (c_s x) = n ->
  exists k x' new, crun c statics x (repeat ChGo k) = Ok x' /\
    c_stk x' = [mkF false [] (User UIdle (Ret 0))] /\ c_log x' = c_log x ++ new ++ [EU UIdle] /\
    ~ In (EU UIdle) new /\ length (dispatches new) = n /\ (forall o, ao_view (c_s x') o = []).
Proof.
  induction n as [|n IH]; intros x H Hs Hp.
  - pose proof (proj1 (pending_zero _) Hp) as Hz. clear Hp. rename Hz into Hp. exists 1%nat. eexists. exists []. cbn [repeat].
    split; [exact (sched_idle x H Hs Hp)|]. split; [reflexivity|]. split; [reflexivity|]. split; [intros []|].
    split; [reflexivity|exact Hp].
  - assert (Hne : exists o0, ao_view (c_s x) o0 <> []).
    { clear - Hp. unfold pending, ao_view in *. induction (k_ao (c_s x)) as [|a t IH]; [discriminate|].
      cbn [map concat] in Hp. rewrite app_length in Hp. destruct (q_view (ao_q a)) eqn:E.
      - destruct IH as [o Ho]; [exact Hp|]. now exists (S o).
      - exists 0%nat. cbn [nth_error]. congruence. }
    destruct Hne as [o0 Hne].
    destruct (sched_turn x o0 H Hs Hne) as (o & e & w & a & s1 & Hv & Ho & _ & E1 & Hv1 & _ & Hp1).
    set (x1 := mkC s1 _ _ _) in E1.
    pose proof (reach_run _ _ _ H E1) as H1.
    destruct (gc_turn x1 o e H1 eq_refl) as (k2 & x2 & labs & E2 & Hs2 & Hq2 & Hl2).
    pose proof (reach_run _ _ _ H1 E2) as H2.
    destruct (IH x2 H2 Hs2) as (k3 & x3 & new & E3 & Hs3 & Hl3 & Hni & Hd & Hv3).
    { destruct Hq2 as (Eq & _). unfold pending in *. rewrite Eq. cbn [c_s x1]. unfold x1. cbn [c_s]. lia. }
    exists (2 + (k2 + k3))%nat, x3.
    exists ([EL (KSel o); EL (KGet o e); EU (UDispatch o e)] ++ map EL labs ++ new).
    split. { rewrite !repeat_app, crun_app. change (repeat ChGo 2) with [ChGo; ChGo]. rewrite E1. cbn [bind].
             rewrite crun_app, E2. exact E3. }
    split; [exact Hs3|]. split; [rewrite Hl3, Hl2; unfold x1; cbn [c_log]; now rewrite !app_assoc|]. split.
    { rewrite !in_app_iff. intros [Hi|[Hi|Hi]]; [|apply in_map_iff in Hi; destruct Hi as (? & ? & _); discriminate|contradiction].
      cbn [In] in Hi. repeat destruct Hi as [Hi|Hi]; try discriminate; contradiction. }
    split; [|exact Hv3]. rewrite !dispatches_app, dispatches_EL. cbn. now rewrite Hd.
Qed.
End T.
