(** Proofs: timers in the running system. *)
From Verif Require Import Base L_Base M_Tmr S_Tmr L_Tmr M_RdyGrp S_RdyGrp L_RdyGrp M_Queue S_Queue L_Queue
  M_MemPool S_MemPool L_MemPool M_Kernel S_Kernel L_KMem L_KQueue L_Kernel L_KRun L_KBoot L_KProps L_KSeq L_KDefer L_KPost L_KSched
  S_App L_App M_TmrSys S_TmrSys.
Local Open Scope N_scope.

Section Y.
Context (tc : tmcfg) (c : kcfg) (mem0 : @mem cell) (statics : list (N * N)) (prios : list N)
  (dqs : list (list (option N) * nat)) (pools : list (N * N * N)) (rs : list N).
Context (SO : sys_ok c mem0 statics prios dqs pools rs).
Notation PB := (pool_lists pools rs).
Notation KInv := (KInv c statics PB mem0 rs prios (length dqs)).
Notation reachable := (reachable c mem0 statics prios dqs pools).
Notation post_call := (post_call c mem0 statics prios dqs pools rs SO).
Notation KInv_reach := (KInv_reach c mem0 statics prios dqs pools rs SO).
Notation Hmax := (Hmax c mem0 statics prios dqs pools rs SO).
Notation Hasrt := (Hasrt c mem0 statics prios dqs pools rs SO).

(** *** The kernel's part of a tick *)
Lemma post_either s l o e : KInv s (cnt l) -> registered s o = true -> is_static statics e = true ->
  (post_sec c false s o e = Fault (FAssert 223) /\ ~ ao_room s o 1) \/
  exists s', post_sec c false s o e = Ok (s', [KPut false o e]) /\ KInv s' (cnt (after_post e l)) /\
    (forall o', registered s o' = true -> registered s' o' = true) /\
    (forall o' k, ao_room s' o' k <-> ao_room s o' ((if Nat.eqb o o' then 1 else 0) + k)%nat) /\
    ao_room s o 1 /\
    forall a, is_static statics a = false -> count_occ N.eq_dec (all_queued s') a = count_occ N.eq_dec (all_queued s) a.
Proof.
  intros HI Hr He. destruct (registered_ao s o Hr) as [a Ho].
  destruct (post_call false s l o a e HI ltac:(now left) Ho Hr) as [Hf Hk].
  pose proof Hr as Hr'. apply registered_reg in Hr'. destruct Hr' as (a1 & Ho1 & Hreg). assert (a1 = a) by congruence. subst a1.
  assert (Hvl : ao_view s o = q_view (ao_q a)) by (unfold ao_view; now rewrite Ho).
  destruct (KQ_post c prios (length dqs) Hmax Hasrt _ _ _ _ _ false o a e (ki_q _ _ _ _ _ _ _ _ _ HI) Ho Hreg) as [(Hl & _)|(Hl & _)];
    rewrite <- Hvl in Hl; [left; split; [exact (Hf Hl)|intros (a1 & Ha1 & Hk1); assert (a1 = a) by congruence; subst a1; lia]|right].
  destruct (Hk Hl) as (s' & E & HI' & Hv & Hd & Hsp & _ & _ & _ & Hq & Hh & _).
  exists s'. split; [exact E|]. split; [exact HI'|]. split; [|split; [|split; [exists a; split; [exact Ho|lia]|]]].
  - intros o' Ho'. unfold registered in *. destruct (nth_error (k_ao s) o') as [a'|] eqn:Ea; [|discriminate].
    destruct (Hq o' a' Ea) as (a'' & -> & _ & ->). now rewrite Hsp.
  - intros o' k. unfold ao_room. rewrite Hv, Nat.eqb_sym. assert (Hlen : forall a', nth_error (k_ao s') o' = Some a' ->
      exists a0, nth_error (k_ao s) o' = Some a0 /\ q_nelems (ao_q a') = q_nelems (ao_q a0)).
    { intros a' Ha'. destruct (nth_error (k_ao s) o') as [a0|] eqn:E0.
      - destruct (Hq o' a0 E0) as (a2 & E2 & E3 & _). exists a0. split; [reflexivity|]. congruence.
      - exfalso. apply nth_error_None in E0. pose proof (nth_some_lt _ _ _ Ha') as Hlt.
        pose proof (f_equal (@length _) (kq_prios _ _ _ _ _ _ _ _ (ki_q _ _ _ _ _ _ _ _ _ HI))) as L1.
        pose proof (f_equal (@length _) (kq_prios _ _ _ _ _ _ _ _ (ki_q _ _ _ _ _ _ _ _ _ HI'))) as L2.
        rewrite map_length in L1, L2. lia. }
    split.
    + intros (a' & Ha' & Hk'). destruct (Hlen a' Ha') as (a0 & E0 & En). exists a0. split; [exact E0|].
      destruct (Nat.eqb_spec o o') as [->|]; rewrite ?app_length in Hk'; cbn [length] in Hk'; lia.
    + intros (a0 & E0 & Hk'). destruct (Hq o' a0 E0) as (a' & E' & En & _). exists a'. split; [exact E'|].
      destruct (Nat.eqb_spec o o') as [->|]; rewrite ?app_length; cbn [length]; lia.
  - intros x Hx. specialize (Hh x). unfold holders, after_post in Hh. rewrite cnt_rem1 in Hh.
    destruct litem_dec in Hh; [discriminate|]. destruct (N.eq_dec e x) as [->|]; [congruence|]. lia.
Qed.

Notation labs_of ps := (map (fun pe => KPut false (fst pe) (snd pe)) ps).
Definition to_count (o : nat) (ps : list (nat * N)) : nat := length (filter (fun pe => Nat.eqb (fst pe) o) ps).
Lemma to_count_cons o pe ps : to_count o (pe :: ps) = ((if Nat.eqb (fst pe) o then 1 else 0) + to_count o ps)%nat.
Proof. unfold to_count. cbn [filter]. now destruct (Nat.eqb (fst pe) o). Qed.
Lemma room_le s o k k' : (k' <= k)%nat -> ao_room s o k -> ao_room s o k'.
Proof. intros H (a & E & Hk). exists a. split; [exact E|lia]. Qed.
Lemma tick_either ps : forall s l labs, KInv s (cnt l) ->
  (forall o e, In (o, e) ps -> registered s o = true /\ is_static statics e = true) ->
  let r := fold_left (fun r pe => do (s, labs) <- r; do (s, l) <- post_sec c false s (fst pe) (snd pe); Ok (s, labs ++ l)) ps (Ok (s, labs)) in
  (r = Fault (FAssert 223) /\ exists o, In o (map fst ps) /\ ~ ao_room s o (to_count o ps)) \/
  exists s', r = Ok (s', labs ++ labs_of ps) /\ (forall o, In o (map fst ps) -> ao_room s o (to_count o ps)) /\ stranded s' = false /\
    forall a, is_static statics a = false -> count_occ N.eq_dec (all_queued s') a = count_occ N.eq_dec (all_queued s) a.
Proof.
  induction ps as [|[o e] ps IH]; intros s l labs HI Hp; cbn [fold_left].
  - right. exists s. cbn. rewrite app_nil_r. split; [reflexivity|]. split; [tauto|]. split; [eapply KInv_stranded; exact HI|reflexivity].
  - destruct (Hp o e ltac:(now left)) as [Hr He]. cbn [bind fst snd].
    destruct (post_either s l o e HI Hr He) as [[E Hn]|(s1 & E & HI1 & Hr1 & Hm1 & Hx1 & Hq1)]; rewrite E; cbn [bind].
    + left. split; [|exists o; split; [now left|]; intros Hm; apply Hn; revert Hm; apply room_le; rewrite to_count_cons; cbn [fst]; rewrite Nat.eqb_refl; lia]. clear. induction ps as [|pe ps IHp]; [reflexivity|]. cbn [fold_left bind]. exact IHp.
    + destruct (IH s1 _ (labs ++ [KPut false o e]) HI1) as [(Ef & o' & Ho' & Hn)|(s' & E' & Hm' & Hst' & Hq')].
      * intros o' e' Hi. destruct (Hp o' e' ltac:(now right)). split; auto.
      * left. split; [exact Ef|]. exists o'. split; [now right|]. rewrite to_count_cons. cbn [fst]. now rewrite <- Hm1.
      * right. exists s'. rewrite E'. cbn [map fst snd]. rewrite <- app_assoc. split; [reflexivity|]. split; [|split; [exact Hst'|]].
        -- intros o' Ho'. rewrite to_count_cons. cbn [fst]. rewrite <- Hm1. destruct (in_dec Nat.eq_dec o' (map fst ps)) as [Hi|Hi]; [auto|].
           destruct Ho' as [<-|]; [|contradiction]. rewrite Hm1. cbn [fst]. rewrite Nat.eqb_refl.
           replace (to_count o ps) with 0%nat; [|symmetry; unfold to_count; rewrite <- (map_length fst)].
           ++ exact Hx1.
           ++ clear - Hi. induction ps as [|pe ps IHp]; [reflexivity|]. cbn [filter map In] in *. destruct (Nat.eqb_spec (fst pe) o); [tauto|]. apply IHp. tauto.
        -- intros a Ha. now rewrite Hq', Hq1.
Qed.

Definition no_right (l : list litem) : Prop := forall x, In x l -> is_right x = false.
Lemma led_puts ps : forall l, no_right l -> no_right (fold_left led_step (labs_of ps) l).
Proof.
  induction ps as [|pe ps IH]; intros l Hl; [exact Hl|]. cbn [map fold_left led_step]. apply IH.
  intros x [<-|Hx]; [reflexivity|]. apply Hl. clear - Hx. induction l as [|y l IH]; [destruct Hx|]. cbn [rem1] in Hx.
  destruct (litem_dec (LFresh (snd pe)) y); [now right|]. destruct Hx as [<-|Hx]; [now left|right; auto].
Qed.
Lemma no_right_ref l a : no_right l -> cnt l (LRef a) = 0%nat.
Proof. intros H. apply count_occ_not_In. intros Hi. specialize (H _ Hi). discriminate. Qed.
Lemma tick_run x ps : reachable x -> (forall o e, In (o, e) ps -> registered (c_s x) o = true /\ is_static statics e = true) ->
  (crun c statics x (tick_isr ps) = Fault (FAssert 223) /\ exists o, In o (map fst ps) /\ ~ ao_room (c_s x) o (to_count o ps)) \/
  (forall o, In o (map fst ps) -> ao_room (c_s x) o (to_count o ps)) /\ exists s' l, crun c statics x (tick_isr ps) =
    Ok (mkC s' (c_led x) (mkF true l (Ret 0) :: mkF true [] (User UIsr (Ret 0)) :: c_stk x) (c_log x ++ map EL (labs_of ps))).
Proof.
  intros H Hp. unfold tick_isr. cbn [crun cstep bind c_s c_led c_stk c_log f_p f_isr f_led].
  unfold grab. cbn [op_ok op_evt].
  assert (Hf : forallb (fun pe => registered (c_s x) (fst pe) && is_static statics (snd pe)) ps = true).
  { apply forallb_forall. intros [o e] Hi. destruct (Hp o e Hi) as [H1 H2]. cbn [fst snd]. now rewrite H1, H2. }
  rewrite Hf. cbn [bind cstep c_s c_led c_stk c_log f_p f_isr f_led api]. unfold tick_posts.
  destruct (tick_either ps (c_s x) (led_all x) [] (KInv_reach x H) Hp) as [[E Hn]|(s' & E & Hm & Hst & Hq)]; rewrite E; cbn [bind app]; [now left|right; split; [exact Hm|]].
  set (led' := fold_left led_step (labs_of ps) (map (fun pe => LReg (fst pe)) ps)).
  assert (Hn : no_right led').
  { apply led_puts. intros y Hy. apply in_map_iff in Hy. destruct Hy as (pe & <- & _). reflexivity. }
  assert (Ho : over statics s' (led' ++ concat (map f_led (mkF true [] (User UIsr (Ret 0)) :: c_stk x)) ++ c_led x) = false).
  { apply not_over. intros a Ha. unfold holders. rewrite (Hq a Ha). unfold cnt. rewrite count_occ_app. fold (cnt led' (LRef a)).
    rewrite (no_right_ref _ _ Hn). cbn [map concat f_led app Nat.add].
    exact (reach_bnd c mem0 statics prios dqs pools rs SO x a H Ha). }
  rewrite Ho, Hst. cbn [user_of orb]. rewrite app_nil_r. exists s', led'. reflexivity.
Qed.

Lemma registered_log x x' m o : reachable x -> reachable x' -> c_log x' = c_log x ++ map EL m -> (forall o, ~ In (KOff o) m) ->
  registered (c_s x) o = true -> registered (c_s x') o = true.
Proof.
  intros H H' El Hm Hr. pose proof (init_reg c mem0 statics prios dqs pools rs SO x H o) as H1.
  pose proof (init_reg c mem0 statics prios dqs pools rs SO x' H' o) as H2.
  rewrite El, init_count_app, off_count_app, H1, Hr, (off_count_labs o m Hm), init_count_labs in H2.
  destruct (registered (c_s x') o); [reflexivity|]. lia.
Qed.

(** *** The timers' part *)
Lemma track_snoc t x tr o r : r <> TOSkip -> track t x (tr ++ [(o, r)]) =
  match o with
  | TTick => after_tick (track t x tr)
  | TInit t' | TStop t' => if t' =? t then None else track t x tr
  | TStart t' n p => if t' =? t then Some (n, p) else track t x tr
  end.
Proof.
  intros Hr. revert x. induction tr as [|[o' r'] tr IH]; intros x; cbn [app track].
  - destruct r; [congruence|destruct o..]; reflexivity.
  - destruct r'; apply IH.
Qed.
Lemma agrees_tick t x tr ps : agrees t x (tr ++ [(TTick, TOTick ps)]) ->
  count_occ N.eq_dec ps t = (if fires (track t x tr) then 1 else 0)%nat.
Proof.
  revert x. induction tr as [|[o r] tr IH]; intros x; cbn [app agrees track].
  - tauto.
  - destruct o, r; try apply IH; try contradiction; intros [_ H]; revert H; apply IH.
Qed.

Record YInv (h : N -> tmr) (y : tsys) : Prop := {
  yi_k : reachable (y_k y);
  yi_t : run (tm_step tc no_hook) (tm_init h, []) (map fst (y_hist y)) = Ok (y_t y, map snd (y_hist y));
  yi_ok : Forall (tmop_ok tc) (map fst (y_hist y));
  yi_ev : forall t, In t (snd (y_t y)) -> is_static statics (y_ev y t) = true;
  yi_to : forall t, running (track t None (y_hist y)) = true -> In t (snd (y_t y)) /\ registered (c_s (y_k y)) (y_to y t) = true }.

Lemma combine_fst_snd {A B} (l : list (A * B)) : combine (map fst l) (map snd l) = l.
Proof. induction l as [|[a b] l IH]; cbn; [reflexivity|now rewrite IH]. Qed.

Lemma y_do_ok h y o : YInv h y -> tmop_ok tc o -> exists t' r, y_do tc y o =
   Ok (mkY (y_k y) t' (y_to y) (y_ev y) (y_hist y ++ [(o, r)]), r) /\
   tm_step tc no_hook (y_t y) o = Ok (t', r) /\
   run (tm_step tc no_hook) (tm_init h, []) (map fst (y_hist y ++ [(o, r)])) = Ok (t', map snd (y_hist y ++ [(o, r)])) /\
   Forall (tmop_ok tc) (map fst (y_hist y ++ [(o, r)])) /\
   (forall t, agrees t None (y_hist y ++ [(o, r)])).
Proof.
  intros HI Ho. destruct (L_Tmr.hist_total tc no_hook (no_hook_ok tc) h (map fst (y_hist y) ++ [o])) as (s2 & rs2 & E).
  { apply Forall_app. split; [apply HI|]. repeat constructor. exact Ho. }
  pose proof E as E0. rewrite run_app, (yi_t _ _ HI) in E. cbn [bind run] in E.
  destruct (tm_step tc no_hook (y_t y) o) as [[t' r]|] eqn:Et; [|discriminate]. cbn [bind] in E. injection E as E1 E2.
  exists t', r. unfold y_do. rewrite Et. cbn [bind]. split; [reflexivity|]. split; [reflexivity|].
  rewrite !map_app. cbn [map fst snd]. subst s2 rs2. split; [exact E0|].
  assert (Hok : Forall (tmop_ok tc) (map fst (y_hist y) ++ [o])).
  { apply Forall_app. split; [apply HI|]. repeat constructor. exact Ho. }
  split; [exact Hok|]. intros t. destruct t' as [st led].
  pose proof (L_Tmr.hist_agrees tc no_hook (no_hook_ok tc) h _ _ _ _ t (no_hook_spares t) Hok E0) as Ha.
  rewrite <- (combine_fst_snd (y_hist y ++ [(o, r)])), !map_app. exact Ha.
Qed.

Lemma tm_led st led o t' r : tm_step tc no_hook (st, led) o = Ok (t', r) ->
  (forall t, In t led -> In t (snd t')) /\ (forall t, In t (snd t') -> In t led \/ o = TInit t) /\
  match o, r with
  | TInit t, r => r = TOUnit /\ In t (snd t')
  | TStart t _ _, r => existsb (N.eqb t) led = true -> r = TOUnit
  | TStop t, r => existsb (N.eqb t) led = true -> exists b, r = TOStop b
  | TTick, r => exists ps, r = TOTick ps
  end.
Proof.
  destruct o as [t|t n p|t|]; cbn [tm_step]; intros E.
  - destruct (tm_init_ (length led) st t) as [s'|]; [|discriminate]. cbn [bind] in E. injection E as <- <-. cbn [snd].
    destruct (existsb (N.eqb t) led) eqn:Ek.
    + repeat split; auto. apply existsb_exists in Ek. destruct Ek as (t1 & Hi & Et). apply N.eqb_eq in Et. now subst.
    + repeat split; cbn [In]; auto. intros t' [->|H]; auto.
  - destruct (existsb (N.eqb t) led) eqn:Ek; [|injection E as <- <-; cbn [snd]; repeat split; auto; discriminate].
    destruct (tm_start tc st t n p); [|discriminate]. cbn [bind] in E. injection E as <- <-. cbn [snd]. auto.
  - destruct (existsb (N.eqb t) led) eqn:Ek; [|injection E as <- <-; cbn [snd]; repeat split; auto; discriminate].
    destruct (tm_stop (length led) st t) as [[s' b]|]; [|discriminate]. cbn [bind] in E. injection E as <- <-. cbn [snd]. eauto.
  - destruct (tm_tick tc no_hook tm_post (length led) st []) as [[s' w]|]; [|discriminate]. cbn [bind] in E. injection E as <- <-. cbn [snd]. eauto.
Qed.

Lemma fires_running x : fires x = true -> running x = true.
Proof. destruct x as [[n p]|]; [reflexivity|discriminate]. Qed.
Lemma after_running x : running (after_tick x) = true -> running x = true.
Proof. destruct x as [[n p]|]; [reflexivity|discriminate]. Qed.

Lemma to_count_map (f : N -> nat) (g : N -> N) o fired :
  to_count o (map (fun t => (f t, g t)) fired) = length (filter (fun t => Nat.eqb (f t) o) fired).
Proof. unfold to_count. induction fired as [|t fired IH]; [reflexivity|]. cbn [map filter fst]. destruct (Nat.eqb (f t) o); cbn [length]; now rewrite IH. Qed.
(** One tick. *)
Lemma tick_step h y : YInv h y ->
  exists st' led' fired, tm_step tc no_hook (y_t y) TTick = Ok ((st', led'), TOTick fired) /\ led' = snd (y_t y) /\
    (forall t, count_occ N.eq_dec fired t = if fires (track t None (y_hist y)) then 1%nat else 0%nat) /\
    ((ystep tc c statics y YTick = Fault (FAssert 223) /\ ~ tmr_room y fired) \/
     tmr_room y fired /\ exists x', ystep tc c statics y YTick = Ok (mkY x' (st', led') (y_to y) (y_ev y) (y_hist y ++ [(TTick, TOTick fired)])) /\
       crun c statics (y_k y) (tick_isr (map (fun t => (y_to y t, y_ev y t)) fired)) = Ok x' /\
       c_log x' = c_log (y_k y) ++ tmr_posts y fired /\
       exists l, c_stk x' = mkF true l (Ret 0) :: mkF true [] (User UIsr (Ret 0)) :: c_stk (y_k y)).
Proof.
  intros HI. destruct (y_do_ok h y TTick HI I) as (t' & r & E & Et & _ & _ & Ha).
  destruct (y_t y) as [st led] eqn:Ey. pose proof Et as Et'. apply tm_led in Et. destruct Et as (_ & _ & ps & ->).
  assert (Hcnt : forall t, count_occ N.eq_dec ps t = if fires (track t None (y_hist y)) then 1%nat else 0%nat).
  { intros t. apply agrees_tick. apply Ha. }
  assert (Hled : snd t' = led).
  { cbn [tm_step] in Et'. destruct (tm_tick tc no_hook tm_post (length led) st []) as [[s' w]|]; [|discriminate].
    cbn [bind] in Et'. injection Et' as <- <-. reflexivity. }
  destruct t' as [st' led']. cbn [snd] in Hled. exists st', led', ps. rewrite Et'. split; [reflexivity|]. split; [exact Hled|]. split; [exact Hcnt|].
  cbn [ystep]. rewrite E. cbn [bind y_k y_t y_to y_ev y_hist].
  destruct (tick_run (y_k y) (map (fun t => (y_to y t, y_ev y t)) ps) (yi_k _ _ HI)) as [(Ef & o & Ho & Hn)|(Hm & s' & l & Es)].
  - intros o e Hi. apply in_map_iff in Hi. destruct Hi as (t & Ee & Hi). injection Ee as <- <-.
    assert (Hf : running (track t None (y_hist y)) = true).
    { apply fires_running. specialize (Hcnt t). destruct (fires _); [reflexivity|]. apply count_occ_not_In in Hcnt. contradiction. }
    destruct (yi_to _ _ HI t Hf) as [Hl Hr]. split; [exact Hr|]. exact (yi_ev _ _ HI t Hl).
  - left. rewrite Ef. split; [reflexivity|]. intros Hm. apply Hn. rewrite map_map in Ho. cbn [fst] in Ho. specialize (Hm o Ho).
    revert Hm. unfold tmr_events. now rewrite map_length, to_count_map.
  - right. split; [|eexists].
    { intros o Ho. specialize (Hm o). rewrite map_map in Hm. cbn [fst] in Hm. specialize (Hm Ho). revert Hm.
      unfold tmr_events. now rewrite map_length, to_count_map. }
     rewrite Es. cbn [bind c_log c_stk]. unfold tmr_posts. rewrite !map_map. cbn [fst snd].
    split; [reflexivity|]. split; [reflexivity|]. split; [reflexivity|]. now exists l.
Qed.

Lemma ystep_inv h y a y' : YInv h y -> ystep tc c statics y a = Ok y' -> YInv h y'.
Proof.
  intros HI E. destruct a as [ch|t e|t o n p|t|]; cbn [ystep] in E.
  - destruct (is_tick ch); [congruence|]. destruct (cstep c statics (y_k y) ch) as [x|] eqn:Ex; [|discriminate]. cbn [bind] in E.
    destruct (orphans y x) eqn:Eo; [congruence|]. injection E as <-.
    constructor; cbn [y_k y_t y_to y_ev y_hist]; try apply HI; [eapply reach_step; [apply HI|exact Ex]|].
    intros t Ht. destruct (yi_to _ _ HI t Ht) as [H1 H2]. split; [exact H1|].
    destruct (registered (c_s x) (y_to y t)) eqn:Er; [reflexivity|exfalso]. unfold orphans in Eo.
    rewrite (proj2 (existsb_exists _ _)) in Eo; [discriminate|]. exists t. split; [exact H1|]. now rewrite Ht, Er.
  - destruct (is_static statics e) eqn:Es; [|congruence].
    destruct (y_do_ok h y (TInit t) HI I) as (t' & r & Ed & Et & E1 & E2 & _). rewrite Ed in E. cbn [bind y_k y_t y_to y_ev y_hist] in E.
    injection E as <-. destruct (y_t y) as [st led] eqn:Ey. apply tm_led in Et. destruct Et as (L1 & L2 & -> & L3).
    constructor; cbn [y_k y_t y_to y_ev y_hist]; auto; [apply HI| |].
    + intros t1 H1. destruct (N.eqb_spec t1 t) as [->|Hn]; [exact Es|]. destruct (L2 _ H1) as [H|H]; [|congruence].
      apply (yi_ev _ _ HI). now rewrite Ey.
    + intros t1. rewrite track_snoc by discriminate. rewrite N.eqb_sym. destruct (N.eqb_spec t1 t); [discriminate|].
      intros Hr. destruct (yi_to _ _ HI t1 Hr) as [H1 H2]. rewrite Ey in H1. auto.
  - destruct (existsb (N.eqb t) (snd (y_t y)) && registered (c_s (y_k y)) o && (0 <? n) && (n <? tnt_mod tc) && (p <? tnt_mod tc)) eqn:Eg; [|congruence].
    rewrite !andb_true_iff, !N.ltb_lt in Eg. destruct Eg as ((((G1 & G2) & G3) & G4) & G5).
    destruct (y_do_ok h y (TStart t n p) HI ltac:(cbn [tmop_ok]; lia)) as (t' & r & Ed & Et & E1 & E2 & _). rewrite Ed in E. cbn [bind y_k y_t y_to y_ev y_hist] in E.
    injection E as <-. destruct (y_t y) as [st led] eqn:Ey. cbn [snd] in G1. apply tm_led in Et. destruct Et as (L1 & L2 & L3). specialize (L3 G1). subst r.
    constructor; cbn [y_k y_t y_to y_ev y_hist]; auto; [apply HI| |].
    + intros t1 H1. destruct (L2 _ H1) as [H|H]; [|congruence]. apply (yi_ev _ _ HI). now rewrite Ey.
    + intros t1. rewrite track_snoc by discriminate. rewrite N.eqb_sym. destruct (N.eqb_spec t1 t) as [->|Hn].
      * intros _. split; [|exact G2]. apply L1. apply existsb_exists in G1. destruct G1 as (t1 & Hi & Ee). apply N.eqb_eq in Ee. now subst.
      * intros Hr. destruct (yi_to _ _ HI t1 Hr) as [H1 H2]. rewrite Ey in H1. auto.
  - destruct (existsb (N.eqb t) (snd (y_t y))) eqn:G1; [|congruence].
    destruct (y_do_ok h y (TStop t) HI I) as (t' & r & Ed & Et & E1 & E2 & _). rewrite Ed in E. cbn [bind] in E.
    injection E as <-. destruct (y_t y) as [st led] eqn:Ey. cbn [snd] in G1. apply tm_led in Et. destruct Et as (L1 & L2 & L3). destruct (L3 G1) as [b ->].
    constructor; cbn [y_k y_t y_to y_ev y_hist]; auto; [apply HI| |].
    + intros t1 H1. destruct (L2 _ H1) as [H|H]; [|congruence]. apply (yi_ev _ _ HI). now rewrite Ey.
    + intros t1. rewrite track_snoc by discriminate. rewrite N.eqb_sym. destruct (N.eqb_spec t1 t); [discriminate|].
      intros Hr. destruct (yi_to _ _ HI t1 Hr) as [H1 H2]. rewrite Ey in H1. auto.
  - destruct (y_do_ok h y TTick HI I) as (t2 & r2 & _ & Et2 & E1 & E2 & _).
    destruct (tick_step h y HI) as (st' & led' & fired & Et & Hl & _ & [[Ef Hnr]|(Hrm & x' & Es & Ec & El & lr & Ek)]); cbn [ystep] in *; [congruence|].
    rewrite Es in E. injection E as <-. rewrite Et in Et2. injection Et2 as <- <-.
    constructor; cbn [y_k y_t y_to y_ev y_hist]; auto.
    + eapply (reach_run c mem0 statics prios dqs pools); [apply HI|exact Ec].
    + cbn [snd]. rewrite Hl. apply HI.
    + intros t1. rewrite track_snoc by discriminate. intros Hr. apply after_running in Hr.
      destruct (yi_to _ _ HI t1 Hr) as [H1 H2]. cbn [snd]. rewrite Hl. split; [exact H1|].
      eapply (registered_log (y_k y)) with (m := map (fun t => KPut false (y_to y t) (y_ev y t)) fired); [apply HI| | | |exact H2].
      * eapply (reach_run c mem0 statics prios dqs pools); [apply HI|exact Ec].
      * rewrite El. unfold tmr_posts. now rewrite map_map.
      * intros o Ho. apply in_map_iff in Ho. destruct Ho as (? & ? & _). discriminate.
Qed.
Lemma ystep_fault h y a f : YInv h y -> ystep tc c statics y a = Fault f -> resource_fault f.
Proof.
  intros HI E. destruct a as [ch|t e|t o n p|t|]; cbn [ystep] in E.
  - destruct (is_tick ch); [discriminate|]. destruct (cstep c statics (y_k y) ch) as [x|] eqn:Ex; [cbn [bind] in E; destruct (orphans y x); discriminate|]. cbn [bind] in E. injection E as ->.
    destruct (yi_k _ _ HI) as (s & chs & Es & Er).
    destruct (every_interleaving c mem0 statics prios dqs pools rs SO) as (s' & Es' & Hall). assert (s' = s) by congruence. subst s'.
    destruct (Hall (chs ++ [ch])) as [(x & Ec)|(f' & Ec & Hf)]; rewrite crun_app, Er in Ec; cbn [bind crun] in Ec; rewrite Ex in Ec; cbn [bind] in Ec; congruence.
  - destruct (is_static statics e); [|discriminate]. destruct (y_do_ok h y (TInit t) HI I) as (t' & r & Ed & _). rewrite Ed in E. discriminate.
  - destruct (existsb (N.eqb t) (snd (y_t y)) && registered (c_s (y_k y)) o && (0 <? n) && (n <? tnt_mod tc) && (p <? tnt_mod tc)) eqn:Eg; [|discriminate].
    rewrite !andb_true_iff, !N.ltb_lt in Eg. destruct Eg as ((((G1 & G2) & G3) & G4) & G5).
    destruct (y_do_ok h y (TStart t n p) HI ltac:(cbn [tmop_ok]; lia)) as (t' & r & Ed & _). rewrite Ed in E. discriminate.
  - destruct (existsb (N.eqb t) (snd (y_t y))); [|discriminate]. destruct (y_do_ok h y (TStop t) HI I) as (t' & r & Ed & _). rewrite Ed in E. discriminate.
  - destruct (tick_step h y HI) as (st' & led' & fired & Et & Hl & _ & [[Ef Hnr]|(Hrm & x' & Es & Ec & El & lr & Ek)]); cbn [ystep] in *; [|congruence].
    rewrite Ef in E. injection E as <-. left. reflexivity.
Qed.
Lemma yrun_inv h l : forall y, YInv h y ->
  (exists y', yrun tc c statics y l = Ok y' /\ YInv h y') \/ (exists f, yrun tc c statics y l = Fault f /\ resource_fault f).
Proof.
  induction l as [|a l IH]; intros y HI; cbn [yrun]; [left; eauto|].
  destruct (ystep tc c statics y a) as [y1|f] eqn:E; cbn [bind].
  - apply IH. eapply ystep_inv; eauto.
  - right. exists f. split; [reflexivity|]. eapply ystep_fault; eauto.
Qed.
Lemma tsys0_inv s h to ev : start c mem0 prios dqs pools = Ok s -> YInv h (tsys0 s h to ev).
Proof.
  intros Es. constructor; cbn [tsys0 y_k y_t y_to y_ev y_hist map run snd].
  - exists s, []. split; [exact Es|reflexivity].
  - reflexivity.
  - constructor.
  - intros t [].
  - intros t Ht. discriminate.
Qed.

(** *** Due times *)
Fixpoint ticked (k : nat) (x : countdown) : countdown := match k with O => x | S k => ticked k (after_tick x) end.
Lemma ticked_snoc k x : ticked (S k) x = after_tick (ticked k x).
Proof. revert x. induction k as [|k IH]; intros x; [reflexivity|]. cbn [ticked] in *. now rewrite <- IH. Qed.
(** Closed form. *)
Lemma ticked_spec n p k : 0 < n ->
  ticked k (Some (n, p)) =
    if N.of_nat k <? n then Some (n - N.of_nat k, p)
    else if p =? 0 then None else Some (p - (N.of_nat k - n) mod p, p).
Proof.
  intros Hn. induction k as [|k IH].
  - cbn [ticked]. destruct (N.ltb_spec (N.of_nat 0) n); [|lia]. f_equal. f_equal. lia.
  - rewrite ticked_snoc, IH. clear IH. replace (N.of_nat (S k)) with (N.of_nat k + 1) by lia. generalize (N.of_nat k) as j. intros j.
    destruct (N.ltb_spec j n) as [Hj|Hj].
    + cbn [after_tick]. destruct (N.eqb_spec (n - j) 1) as [E|E].
      * destruct (N.ltb_spec (j + 1) n); [lia|]. destruct (N.eqb_spec p 0) as [->|Hp]; [reflexivity|].
        replace (j + 1 - n) with 0 by lia. rewrite N.mod_0_l by exact Hp. f_equal. f_equal. lia.
      * destruct (N.ltb_spec (j + 1) n); [|lia]. f_equal. f_equal. lia.
    + destruct (N.ltb_spec (j + 1) n); [lia|]. destruct (N.eqb_spec p 0) as [->|Hp]; [reflexivity|].
      replace (j + 1 - n) with ((j - n) + 1) by lia. set (d := j - n) in *. clearbody d. cbn [after_tick].
      pose proof (N.mod_lt d p Hp) as Hm. pose proof (N.div_mod d p Hp) as Hd.
      destruct (N.eqb_spec (p - d mod p) 1) as [E|E].
      * replace ((d + 1) mod p) with 0; [destruct (N.eqb_spec p 0); [contradiction|]; f_equal; f_equal; lia|].
        symmetry. apply N.mod_divide; [exact Hp|]. exists (d / p + 1). lia.
      * replace ((d + 1) mod p) with (d mod p + 1); [f_equal; f_equal; lia|].
        apply (N.mod_unique (d + 1) p (d / p)); lia.
Qed.
Lemma due_fires n p k : 0 < n -> fires (ticked k (Some (n, p))) = due n p (N.of_nat k + 1).
Proof.
  intros Hn. rewrite ticked_spec by exact Hn. unfold due. generalize (N.of_nat k) as j. intros j.
  destruct (N.ltb_spec j n) as [Hj|Hj].
  - cbn [fires]. destruct (N.eqb_spec p 0) as [Hp|Hp].
    + destruct (N.eqb_spec (n - j) 1), (N.eqb_spec (j + 1) n); reflexivity || lia.
    + destruct (N.eqb_spec (n - j) 1) as [E|E].
      * destruct (N.leb_spec n (j + 1)); [|lia]. replace (j + 1 - n) with 0 by lia. now rewrite N.mod_0_l.
      * destruct (N.leb_spec n (j + 1)); [lia|reflexivity].
  - destruct (N.eqb_spec p 0) as [Hp|Hp]; cbn [fires].
    + destruct (N.eqb_spec (j + 1) n); [lia|reflexivity].
    + destruct (N.leb_spec n (j + 1)); [|lia]. cbn [andb]. replace (j + 1 - n) with ((j - n) + 1) by lia. set (d := j - n) in *. clearbody d.
      pose proof (N.mod_lt d p Hp) as Hm. pose proof (N.div_mod d p Hp) as Hd.
      destruct (N.eqb_spec (p - d mod p) 1) as [E|E].
      * replace ((d + 1) mod p) with 0; [reflexivity|]. symmetry. apply N.mod_divide; [exact Hp|]. exists (d / p + 1). lia.
      * replace ((d + 1) mod p) with (d mod p + 1); [destruct (N.eqb_spec (d mod p + 1) 0); [lia|reflexivity]|].
        apply (N.mod_unique (d + 1) p (d / p)); lia.
Qed.

(** What the steps that leave [t] alone do to its countdown. *)
Lemma leaves_track h t l : forall y y', YInv h y -> Forall (leaves t) l -> yrun tc c statics y l = Ok y' ->
  track t None (y_hist y') = ticked (N.to_nat (ticks l)) (track t None (y_hist y)) /\ y_to y' t = y_to y t /\ y_ev y' t = y_ev y t /\
  (In t (snd (y_t y)) -> In t (snd (y_t y'))).
Proof.
  induction l as [|a l IH]; intros y y' HI Hl E; cbn [yrun] in E; [injection E as <-; auto|].
  destruct (ystep tc c statics y a) as [y1|] eqn:E1; [|discriminate]. cbn [bind] in E.
  inversion Hl as [|a' l' Ha Hl']; subst. pose proof (ystep_inv h y a y1 HI E1) as HI1.
  destruct (IH y1 y' HI1 Hl' E) as (H1 & H2 & H3 & H4). clear IH E.
  assert (G : track t None (y_hist y1) = (match a with YTick => after_tick (track t None (y_hist y)) | _ => track t None (y_hist y) end) /\
    y_to y1 t = y_to y t /\ y_ev y1 t = y_ev y t /\ (In t (snd (y_t y)) -> In t (snd (y_t y1)))).
  { clear - SO HI E1 Ha. destruct a as [ch|t' e|t' o n p|t'|]; cbn [leaves] in Ha.
    - cbn [ystep] in E1. destruct (is_tick ch); [injection E1 as <-; auto|]. destruct (cstep c statics (y_k y) ch) as [x|]; [|discriminate]. cbn [bind] in E1. destruct (orphans y x); injection E1 as <-; auto.
    - cbn [ystep] in E1. destruct (is_static statics e); [|injection E1 as <-; auto].
      destruct (y_do_ok h y (TInit t') HI I) as (t2 & r & Ed & Et & _). rewrite Ed in E1. cbn [bind y_k y_t y_to y_ev y_hist] in E1.
      injection E1 as <-. cbn [y_k y_t y_to y_ev y_hist]. destruct (y_t y) as [st led]. apply tm_led in Et. destruct Et as (L1 & _ & -> & _).
      rewrite track_snoc by discriminate. destruct (N.eqb_spec t' t); [contradiction|]. destruct (N.eqb_spec t t'); [congruence|]. auto.
    - cbn [ystep] in E1.
      destruct (existsb (N.eqb t') (snd (y_t y)) && registered (c_s (y_k y)) o && (0 <? n) && (n <? tnt_mod tc) && (p <? tnt_mod tc)) eqn:Eg; [|injection E1 as <-; auto].
      rewrite !andb_true_iff, !N.ltb_lt in Eg. destruct Eg as ((((G1 & G2) & G3) & G4) & G5).
      destruct (y_do_ok h y (TStart t' n p) HI ltac:(cbn [tmop_ok]; lia)) as (t2 & r & Ed & Et & _). rewrite Ed in E1. cbn [bind y_k y_t y_to y_ev y_hist] in E1.
      injection E1 as <-. cbn [y_k y_t y_to y_ev y_hist]. destruct (y_t y) as [st led]. apply tm_led in Et. destruct Et as (L1 & _ & L3). specialize (L3 G1). subst r.
      rewrite track_snoc by discriminate. destruct (N.eqb_spec t' t); [contradiction|]. destruct (N.eqb_spec t t'); [congruence|]. auto.
    - cbn [ystep] in E1. destruct (existsb (N.eqb t') (snd (y_t y))) eqn:G1; [|injection E1 as <-; auto].
      destruct (y_do_ok h y (TStop t') HI I) as (t2 & r & Ed & Et & _). rewrite Ed in E1. cbn [bind] in E1.
      injection E1 as <-. cbn [y_k y_t y_to y_ev y_hist]. destruct (y_t y) as [st led]. apply tm_led in Et. destruct Et as (L1 & _ & L3). destruct (L3 G1) as [b ->].
      rewrite track_snoc by discriminate. destruct (N.eqb_spec t' t); [contradiction|]. auto.
    - destruct (tick_step h y HI) as (st' & led' & fired & Et & Hl & _ & [[Ef Hnr]|(Hrm & x' & Es & Ec & El & lr & Ek)]); [congruence|].
      rewrite Es in E1. injection E1 as <-. cbn [y_k y_t y_to y_ev y_hist snd]. rewrite track_snoc by discriminate. rewrite Hl. auto. }
  destruct G as (G1 & G2 & G3 & G4). rewrite H1, H2, H3, G1, G2, G3. split; [|auto].
  unfold ticks. cbn [filter]. destruct a; cbn [length]; rewrite ?Nat2N.id; try reflexivity.
Qed.
Lemma start_track h y t o n p y' : YInv h y -> In t (snd (y_t y)) -> registered (c_s (y_k y)) o = true ->
  0 < n < tnt_mod tc -> p < tnt_mod tc -> ystep tc c statics y (YStart t o n p) = Ok y' ->
  track t None (y_hist y') = Some (n, p) /\ y_to y' t = o /\ y_ev y' t = y_ev y t.
Proof.
  intros HI Ht Hr Hn Hp E. cbn [ystep] in E.
  assert (Ek : existsb (N.eqb t) (snd (y_t y)) = true) by (apply existsb_exists; exists t; rewrite N.eqb_refl; auto).
  rewrite Ek, Hr in E. destruct (N.ltb_spec 0 n); [|lia]. destruct (N.ltb_spec n (tnt_mod tc)); [|lia]. destruct (N.ltb_spec p (tnt_mod tc)); [|lia].
  cbn [andb] in E. destruct (y_do_ok h y (TStart t n p) HI ltac:(cbn [tmop_ok]; lia)) as (t2 & r & Ed & Et & _). rewrite Ed in E. cbn [bind y_k y_t y_to y_ev y_hist] in E.
  injection E as <-. cbn [y_k y_t y_to y_ev y_hist]. destruct (y_t y) as [st led]. apply tm_led in Et. destruct Et as (L1 & _ & L3). specialize (L3 Ek). subst r.
  rewrite track_snoc by discriminate. rewrite N.eqb_refl. auto.
Qed.

Lemma ticked_none k : ticked k None = None.
Proof. induction k as [|k IH]; [reflexivity|exact IH]. Qed.
Lemma stop_track h y t a y' : YInv h y ->
  (a = YStop t /\ In t (snd (y_t y))) \/ (exists e, a = YInit t e /\ is_static statics e = true) ->
  ystep tc c statics y a = Ok y' -> track t None (y_hist y') = None.
Proof.
  intros HI [[-> Ht]|(e & -> & He)] E; cbn [ystep] in E.
  - assert (Ek : existsb (N.eqb t) (snd (y_t y)) = true) by (apply existsb_exists; exists t; rewrite N.eqb_refl; auto).
    rewrite Ek in E. destruct (y_do_ok h y (TStop t) HI I) as (t2 & r & Ed & Et & _). rewrite Ed in E. cbn [bind] in E. injection E as <-.
    destruct (y_t y) as [st led]. apply tm_led in Et. destruct Et as (_ & _ & L3). destruct (L3 Ek) as [b ->].
    cbn [y_hist]. rewrite track_snoc by discriminate. now rewrite N.eqb_refl.
  - rewrite He in E. destruct (y_do_ok h y (TInit t) HI I) as (t2 & r & Ed & Et & _). rewrite Ed in E. cbn [bind y_hist] in E. injection E as <-.
    destruct (y_t y) as [st led]. apply tm_led in Et. destruct Et as (_ & _ & -> & _).
    cbn [y_hist]. rewrite track_snoc by discriminate. now rewrite N.eqb_refl.
Qed.

(** A tick and the queues. *)
Lemma log_puts o y fired : forall q, fold_left (log_step o) (tmr_posts y fired) (Some q) = Some (q ++ tmr_events y o fired).
Proof.
  induction fired as [|t fired IH]; intros q; cbn [tmr_posts tmr_events map fold_left filter log_step].
  - now rewrite app_nil_r.
  - rewrite (Nat.eqb_sym (y_to y t) o). destruct (Nat.eqb o (y_to y t)); fold (tmr_posts y fired); rewrite IH; [|reflexivity].
    cbn [map]. rewrite <- app_assoc. reflexivity.
Qed.
Lemma tick_effects h y y' : YInv h y -> ystep tc c statics y YTick = Ok y' ->
  exists fired, NoDup fired /\
    (forall t, In t fired <-> fires (track t None (y_hist y)) = true) /\ tmr_room y fired /\
    c_log (y_k y') = c_log (y_k y) ++ tmr_posts y fired /\
    (forall o, ao_view (c_s (y_k y')) o = ao_view (c_s (y_k y)) o ++ tmr_events y o fired) /\
    exists l, c_stk (y_k y') = mkF true l (Ret 0) :: mkF true [] (User UIsr (Ret 0)) :: c_stk (y_k y).
Proof.
  intros HI E. pose proof (ystep_inv h y YTick y' HI E) as HI'.
  destruct (tick_step h y HI) as (st' & led' & fired & Et & Hl & Hc & [[Ef Hnr]|(Hrm & x' & Es & Ec & El & lr & Ek)]); [congruence|].
  rewrite Es in E. injection E as <-. exists fired. cbn [y_k c_log c_s c_stk]. split; [|split; [|split; [exact Hrm|split; [exact El|split; [|now exists lr]]]]].
  - apply (NoDup_count_occ N.eq_dec). intros t. rewrite Hc. destruct (fires _); lia.
  - intros t. rewrite (count_occ_In N.eq_dec), Hc. destruct (fires _); split; intros; try lia; try discriminate; reflexivity.
  - intros o. pose proof (in_order c mem0 statics prios dqs pools rs SO _ o (yi_k _ _ HI)) as H1.
    pose proof (in_order c mem0 statics prios dqs pools rs SO _ o (yi_k _ _ HI')) as H2. cbn [y_k c_log c_s] in H2.
    unfold log_queue in *. rewrite El, fold_left_app, H1, log_puts in H2. congruence.
Qed.
Lemma tick_faults h y f : YInv h y -> ystep tc c statics y YTick = Fault f ->
  f = FAssert 223 /\ exists fired, NoDup fired /\
    (forall t, In t fired <-> fires (track t None (y_hist y)) = true) /\ ~ tmr_room y fired.
Proof.
  intros HI E.
  destruct (tick_step h y HI) as (st' & led' & fired & Et & Hl & Hc & [[Ef Hnr]|(Hrm & x' & Es & _)]); [|congruence].
  rewrite Ef in E. injection E as <-. split; [reflexivity|]. exists fired. split; [|split; [|exact Hnr]].
  - apply (NoDup_count_occ N.eq_dec). intros t. rewrite Hc. destruct (fires _); lia.
  - intros t. rewrite (count_occ_In N.eq_dec), Hc. destruct (fires _); split; intros; try lia; try discriminate; reflexivity.
Qed.
End Y.
