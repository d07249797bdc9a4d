(** Proofs: every execution of the driver keeps the kernel invariant. *)
From Verif Require Import Base L_Base M_RdyGrp S_RdyGrp L_RdyGrp M_Queue S_Queue L_Queue
  M_MemPool S_MemPool L_MemPool M_Kernel S_Kernel L_KMem L_KQueue L_Kernel.
Local Open Scope N_scope.

Section R.
Context (c : kcfg) (statics : list (N * N)) (PB : list (list N)) (m0 : @mem cell) (RS : list N) (prios : list N) (nd : nat).
Context (OK : pb_ok c statics PB).
Context (Hmax : 1 <= max_sma (q_rg (k_qc c)) <= 64) (Hasrt : q_asrt (k_qc c) = true).

Notation KInv := (KInv c statics PB m0 RS prios nd).
Notation safe := (safe c statics PB m0 RS prios nd).
Notation safeT := (safeT c statics PB m0 RS prios nd).
Notation bnd := (bnd statics).
Notation evs := (evs c).

Lemma is_static_stat e : is_static statics e = true <-> stat statics e.
Proof.
  unfold is_static, stat. rewrite existsb_exists. split.
  - intros ([x sig] & Hi & E). apply N.eqb_eq in E. simpl in E. subst x. eauto.
  - intros [sig Hi]. exists (e, sig). split; [exact Hi|]. simpl. apply N.eqb_refl.
Qed.

(** References to static events do not matter. *)
Lemma KInv_ext2 s L L' :
  (forall x, is_right x = true -> (forall e, x = LRef e -> ~ stat statics e) -> L' x = L x) ->
  KInv s L -> KInv s L'.
Proof.
  intros E []. constructor; auto.
  assert (ET : forall a, ~ stat statics a -> tot s L' a = tot s L a).
  { intros a Ha. unfold tot. rewrite E; [reflexivity|reflexivity|]. intros e0 Ee. injection Ee as <-. exact Ha. }
  assert (EW : forall i a, L' (LRaw i a) = L (LRaw i a)) by (intros; apply E; [reflexivity|discriminate]).
  assert (EF : forall a, L' (LFresh a) = L (LFresh a)) by (intros; apply E; [reflexivity|discriminate]).
  assert (ED : forall i a, L' (LDead i a) = L (LDead i a)) by (intros; apply E; [reflexivity|discriminate]).
  destruct ki_mem. constructor.
  - intros i B HB. destruct (km_pool i B HB) as (p & ow & Hp & Hi & Hb). exists p, ow.
    split; [exact Hp|]. split; [exact Hi|]. intros a Ha. specialize (Hb a Ha). unfold blk in *.
    rewrite ET, EW, EF, ED; [exact Hb|]. apply (pb_stat _ _ _ OK i). exists B. auto.
  - exact km_stat.
  - intros i a. rewrite EW. apply km_W.
  - intros i a. rewrite ED. apply km_D.
  - intros a. rewrite EF. apply km_F.
  - intros a Ha. destruct (is_static statics a) eqn:Es; [left; now apply is_static_stat|].
    rewrite ET in Ha; [now apply km_T|]. intros Hst. apply is_static_stat in Hst. congruence.
  - exact km_rest.
Qed.

(** *** Calls *)
Lemma registered_reg s o : registered s o = true <->
  exists a, nth_error (k_ao s) o = Some a /\ reg (k_sp s) a o.
Proof.
  unfold registered, reg. destruct (nth_error (k_ao s) o) as [a|].
  2:{ split; [discriminate|]. intros (a & E & _). discriminate. }
  destruct (nth_error (k_sp s) (N.to_nat (ao_prio a))) as [[o'|]|] eqn:E.
  - rewrite Nat.eqb_eq. split; [intros <-; eauto|]. intros (a' & Ea & Hr). injection Ea as <-. congruence.
  - split; [discriminate|]. intros (a' & Ea & Hr). injection Ea as <-. congruence.
  - split; [discriminate|]. intros (a' & Ea & Hr). injection Ea as <-. congruence.
Qed.

Lemma grab_evt_holds s l lower gc e mine l' :
  grab_evt statics s l lower gc e = Some (mine, l') ->
  holds statics mine e /\
  (gc = true -> stat statics e \/ In (LFresh e) mine \/ In (LRef e) mine) /\
  (forall y, is_right y = true -> cnt mine y + cnt l' y = cnt l y)%nat /\
  (forall y, In y mine -> is_right y = true \/
      y = LLive e /\ (In e (all_queued s) \/ (0 < cnt lower (LRef e))%nat)).
Proof.
  unfold grab_evt. destruct (is_static statics e) eqn:Es.
  { intros E. injection E as <- <-. apply is_static_stat in Es. unfold holds. simpl. intuition auto. }
  destruct (has l (LFresh e)) eqn:E1.
  { intros E. injection E as <- <-. apply has_in, cnt_in in E1.
    split; [right; left; now left|]. split; [intros _; right; left; now left|]. split.
    - intros y Hy. rewrite cnt_cons, cnt_rem1. destruct (litem_dec (LFresh e) y); [subst y|]; cbn [cnt count_occ]; lia.
    - intros y [<-|[]]. left. reflexivity. }
  destruct (has l (LRef e)) eqn:E2.
  { intros E. injection E as <- <-. apply has_in, cnt_in in E2.
    split; [right; right; left; now left|]. split; [intros _; right; right; now left|]. split.
    - intros y Hy. rewrite cnt_cons, cnt_rem1. destruct (litem_dec (LRef e) y); [subst y|]; cbn [cnt count_occ]; lia.
    - intros y [<-|[]]. left. reflexivity. }
  destruct gc; [discriminate|].
  destruct (has lower (LRef e) || existsb (N.eqb e) (all_queued s)) eqn:E3; [|discriminate].
  intros E. injection E as <- <-. split; [right; right; right; now left|]. split; [discriminate|]. split.
  - intros y Hy. rewrite cnt_cons. destruct (litem_dec (LLive e) y); [subst y; discriminate|reflexivity].
  - intros y [<-|[]]. right. split; [reflexivity|]. apply orb_true_iff in E3. destruct E3 as [E3|E3].
    + right. apply cnt_in. now apply has_in.
    + left. apply existsb_exists in E3. destruct E3 as (x & Hx & Ex). apply N.eqb_eq in Ex. now subst x.
Qed.

Lemma holds_app mine ev' e : holds statics mine e -> holds statics (mine ++ ev') e.
Proof. unfold holds. rewrite !in_app_iff. tauto. Qed.

Lemma range_prio s L o : KInv s L -> ao_in_range c s o = true ->
  exists p, nth_error prios o = Some p /\ p < max_sma (q_rg (k_qc c)).
Proof.
  intros HI. unfold ao_in_range. rewrite <- (kq_prios _ _ _ _ _ _ _ _ (ki_q _ _ _ _ _ _ _ _ _ HI)), nth_error_map.
  destruct (nth_error (k_ao s) o) as [a|]; [|discriminate]. intros H. apply N.ltb_lt in H. cbn [option_map]. eauto.
Qed.

Lemma op_ok_ev s L isr op led : KInv s L -> op_ok c statics s isr op = Some led ->
  (forall y, In y led -> is_right y = false /\ ev c s (fun _ => 0%nat) y).
Proof.
  intros HI. destruct op; cbn [op_ok]; intros E y Hy.
  1-3: injection E as <-; destruct Hy.
  - destruct (registered s o) eqn:Er; [|discriminate]. injection E as <-. destruct Hy as [<-|[]].
    split; [reflexivity|]. now apply registered_reg.
  - destruct (ch_ok c ch); [|discriminate]. injection E as <-; destruct Hy.
  - destruct (ch_ok c ch && ao_in_range c s o); [|discriminate]. injection E as <-; destruct Hy.
  - destruct (ch_ok c ch && ao_in_range c s o); [|discriminate]. injection E as <-; destruct Hy.
  - destruct (ao_in_range c s o); [|discriminate]. injection E as <-; destruct Hy.
  - destruct (d <? length (k_dq s))%nat; [|discriminate]. injection E as <-; destruct Hy.
  - destruct (negb isr && registered s o && (d <? length (k_dq s))%nat) eqn:Er; [|discriminate].
    injection E as <-. destruct Hy as [<-|[]]. split; [reflexivity|]. apply registered_reg.
    apply andb_true_iff in Er. destruct Er as [Er _]. now apply andb_true_iff in Er.
  - destruct (nth_error (k_ao s) o) as [a|] eqn:Ea; [|now rewrite andb_false_r in E].
    destruct (nth_error (k_sp s) (N.to_nat (ao_prio a))) as [[|]|] eqn:Es; try (now rewrite andb_false_r in E).
    rewrite andb_true_r in E.
    destruct (negb isr && ao_in_range c s o && (0 <? qsize)%nat && (qsize <=? length qs)%nat) eqn:Er; [|discriminate].
    injection E as <-. destruct Hy as [<-|[]]. split; [reflexivity|].
    rewrite !andb_true_iff in Er. destruct Er as (((_ & Hr) & _) & _).
    unfold ao_in_range in Hr. rewrite Ea in Hr. apply N.ltb_lt in Hr. cbn [ev]. eauto.
  - destruct (forallb _ ps) eqn:Ef; [|discriminate]. injection E as <-.
    rewrite forallb_forall in Ef. apply in_map_iff in Hy. destruct Hy as (pe & <- & Hpe).
    split; [reflexivity|]. specialize (Ef pe Hpe). apply andb_true_iff in Ef. now apply registered_reg.
  - destruct (negb isr && registered s o) eqn:Er; [|discriminate]. injection E as <-. destruct Hy as [<-|[]].
    split; [reflexivity|]. apply registered_reg. now apply andb_true_iff in Er.
Qed.

Lemma ev_mono s lo lo' y : (forall x, lo x <= lo' x)%nat -> ev c s lo y -> ev c s lo' y.
Proof.
  intros H. destruct y as [| | | |e| | | |]; cbn [ev]; auto. intros [Hq|Hq]; [auto|right].
  specialize (H (LRef e)). lia.
Qed.

Lemma grab_spec s L l lower isr op mine l' :
  KInv s L -> grab c statics s l lower isr op = Some (mine, l') ->
  safeT isr (api c op) mine /\
  (forall y, is_right y = true -> cnt mine y + cnt l' y = cnt l y)%nat /\
  evs s (cnt lower) mine.
Proof.
  intros HI Hg. unfold grab in Hg. destruct (op_ok c statics s isr op) as [ev0|] eqn:Eo; [|discriminate].
  pose proof (op_ok_ev s L isr op ev0 HI Eo) as Hev.
  assert (Hev0 : forall y, is_right y = true -> cnt ev0 y = 0%nat).
  { intros y Hy. destruct (Nat.eq_dec (cnt ev0 y) 0) as [E0|E0]; [exact E0|].
    assert (Hi : In y ev0) by (apply cnt_in; lia). apply Hev in Hi. destruct Hi as [Hi _]. congruence. }
  assert (Hevs : evs s (cnt lower) ev0).
  { intros y Hy. apply Hev in Hy. eapply ev_mono; [|apply Hy]. intros x. cbv beta. lia. }
  assert (Hno : op_evt op = None -> mine = ev0 /\ l' = l).
  { intros E. rewrite E in Hg. now injection Hg as <- <-. }
  assert (Hyes : forall e, op_evt op = Some e -> exists m1, mine = m1 ++ ev0 /\
             grab_evt statics s l lower (is_gc op) e = Some (m1, l')).
  { intros e E. rewrite E in Hg. destruct (grab_evt statics s l lower (is_gc op) e) as [[m1 l0]|]; [|discriminate].
    injection Hg as <- <-. eauto. }
  clear Hg.
  assert (Hrest : (forall y, is_right y = true -> cnt mine y + cnt l' y = cnt l y)%nat /\ evs s (cnt lower) mine).
  { destruct (op_evt op) as [e|] eqn:Ee.
    - destruct (Hyes e eq_refl) as (m1 & -> & Eg). destruct (grab_evt_holds _ _ _ _ _ _ _ Eg) as (_ & _ & H3 & H4). split.
      + intros y Hy. rewrite cnt_app, (Hev0 y Hy), Nat.add_0_r. now apply H3.
      + intros y Hy. apply in_app_iff in Hy. destruct Hy as [Hy|Hy]; [|now apply Hevs].
        destruct (H4 y Hy) as [Hr|(-> & Hl)]; [destruct y; try exact I; discriminate|]. exact Hl.
    - destruct (Hno eq_refl) as (-> & ->). split; [|exact Hevs]. intros y Hy. now rewrite (Hev0 y Hy). }
  split; [|exact Hrest].
  assert (Hh : forall e, op_evt op = Some e -> holds statics mine e).
  { intros e E. destruct (Hyes e E) as (m1 & -> & Eg). apply holds_app. now apply grab_evt_holds in Eg. }
  destruct op as [esize sig|e|e|lifo o e|ch e sender|ch o|ch o|o|d e|o d|o qs n|ps|o]; cbn [api op_evt] in *.
  - apply safe_T, safe_ae; assumption.
  - destruct (Hyes e eq_refl) as (m1 & -> & Eg). destruct (grab_evt_holds _ _ _ _ _ _ _ Eg) as (_ & H2 & _).
    apply safe_T, safe_gc; try assumption. specialize (H2 eq_refl). rewrite !in_app_iff. tauto.
  - apply safe_T, safe_reserve; auto.
  - cbn [op_ok] in Eo. destruct (registered s o); [|discriminate]. injection Eo as <-.
    apply safe_T, safe_post; auto. destruct (Hyes e eq_refl) as (m1 & -> & _). apply in_app_iff. right. now left.
  - cbn [op_ok] in Eo. destruct (ch_ok c ch) eqn:Ech; [|discriminate]. unfold ch_ok in Ech.
    apply andb_true_iff in Ech. destruct Ech as [H1 H2]. apply N.ltb_lt in H1, H2.
    apply safe_T, safe_publish; auto.
  - cbn [op_ok] in Eo. destruct (ch_ok c ch && ao_in_range c s o) eqn:Ech; [|discriminate]. unfold ch_ok in Ech.
    rewrite !andb_true_iff in Ech. destruct Ech as [[H1 H2] H3]. apply N.ltb_lt in H1, H2.
    destruct (range_prio _ _ _ HI H3) as (p & Hp & Hlt).
    apply safe_T, (safe_sub c statics PB m0 RS prios nd Hmax Hasrt isr true ch o p); assumption.
  - cbn [op_ok] in Eo. destruct (ch_ok c ch && ao_in_range c s o) eqn:Ech; [|discriminate]. unfold ch_ok in Ech.
    rewrite !andb_true_iff in Ech. destruct Ech as [[H1 H2] H3]. apply N.ltb_lt in H1, H2.
    destruct (range_prio _ _ _ HI H3) as (p & Hp & Hlt).
    apply safe_T, (safe_sub c statics PB m0 RS prios nd Hmax Hasrt isr false ch o p); assumption.
  - cbn [op_ok] in Eo. destruct (ao_in_range c s o) eqn:H3; [|discriminate].
    destruct (range_prio _ _ _ HI H3) as (p & Hp & Hlt). apply safe_T; eapply safe_unsubAll; eauto.
  - cbn [op_ok] in Eo. destruct (Nat.ltb_spec d (length (k_dq s))) as [Hd|]; [|discriminate].
    rewrite (kq_nd _ _ _ _ _ _ _ _ (ki_q _ _ _ _ _ _ _ _ _ HI)) in Hd. apply safe_T, safe_defer; auto.
  - cbn [op_ok] in Eo. destruct (negb isr && registered s o && (d <? length (k_dq s))%nat) eqn:Er; [|discriminate].
    rewrite !andb_true_iff in Er. destruct Er as ((H1 & H2) & Hd). apply Nat.ltb_lt in Hd.
    rewrite (kq_nd _ _ _ _ _ _ _ _ (ki_q _ _ _ _ _ _ _ _ _ HI)) in Hd.
    apply negb_true_iff in H1. subst isr. injection Eo as <-. destruct (Hno eq_refl) as (-> & ->).
    apply safe_T, safe_recall; auto. now left.
  - cbn [op_ok] in Eo.
    destruct (negb isr && ao_in_range c s o && (0 <? n)%nat && (n <=? length qs)%nat && _) eqn:Er; [|discriminate].
    rewrite !andb_true_iff in Er. destruct Er as ((((H1 & _) & H2) & H3) & _). apply Nat.ltb_lt in H2. apply Nat.leb_le in H3.
    apply negb_true_iff in H1. subst isr. injection Eo as <-. destruct (Hno eq_refl) as (-> & ->).
    apply safe_T, safe_activate; auto.
  - cbn [op_ok] in Eo. destruct (forallb _ ps) eqn:Ef; [|discriminate]. injection Eo as <-.
    destruct (Hno eq_refl) as (-> & ->). rewrite forallb_forall in Ef.
    apply safe_T, safe_tick; auto. intros o e Hi. split.
    + apply in_map_iff. exists (o, e). auto.
    + specialize (Ef _ Hi). apply andb_true_iff in Ef. now apply is_static_stat.
  - cbn [op_ok] in Eo. destruct (negb isr && registered s o) eqn:Er; [|discriminate]. apply andb_true_iff in Er. destruct Er as [H1 _].
    apply negb_true_iff in H1. subst isr. injection Eo as <-. destruct (Hno eq_refl) as (-> & ->). apply safe_terminate; auto.
Qed.

(** *** Configurations *)
Definition at_user (f : frame) : Prop := exists u k, f_p f = User u k.

Fixpoint stk_ok (s : kst) (stk : list frame) : Prop :=
  match stk with
  | [] => True
  | f :: below =>
    safeT (f_isr f) (f_p f) (f_led f) /\
    evs s (cnt (concat (map f_led below))) (f_led f) /\
    (f_isr f = false -> forall g, In g below -> f_isr g = false /\ at_user g) /\
    stk_ok s below
  end.

Record CInv (x : conf) : Prop := {
  ci_k : KInv (c_s x) (cnt (led_all x));
  ci_b : bnd (c_s x) (cnt (led_all x));
  ci_stk : stk_ok (c_s x) (c_stk x);
  ci_log : forall o, log_queue o (c_log x) = Some (ao_view (c_s x) o) }.

Lemma safe_user_inv isr u k led : safeT isr (User u k) led ->
  (forall x, In x led -> is_right x = true) /\ quiet k /\ safeT isr k led.
Proof. intros H. inversion H; subst. auto. Qed.

Lemma safe_atom_inv isr f led : safe isr (Atom f) led ->
  forall s env lo, (forall x, lo x <= env x)%nat -> KInv s (Lc led env) -> bnd s (Lc led env) -> evs s lo led ->
       (forall flt, f s = Fault flt -> resource_fault flt) /\
       forall s' labs p', f s = Ok (s', labs, p') ->
         let led' := fold_left led_step labs led in
         (KInv s' (Lc led' env) /\ evs s' lo led' /\ (isr = true -> sgrows s s') /\ eff s labs p' s') /\
         safe isr p' led'.
Proof. intros H. inversion H; subst. assumption. Qed.
Lemma safeT_atom_inv isr f led : safeT isr (Atom f) led ->
  forall s env lo, (forall x, lo x <= env x)%nat -> KInv s (Lc led env) -> bnd s (Lc led env) -> evs s lo led ->
       (forall flt, f s = Fault flt -> resource_fault flt) /\
       forall s' labs p', f s = Ok (s', labs, p') -> stranded s' = false ->
         let led' := fold_left led_step labs led in
         (KInv s' (Lc led' env) /\ evs s' lo led' /\ (isr = true -> sgrows s s') /\ eff s labs p' s') /\
         safeT isr p' led'.
Proof. intros H. inversion H; subst. assumption. Qed.

Lemma evs_right s lo led : (forall x, In x led -> is_right x = true) -> evs s lo led.
Proof. intros H x Hx. specialize (H x Hx). destruct x; try exact I; discriminate. Qed.

(** The frames below stay as they were: either the running frame is an
    interrupt, or they have no evidence. *)
Lemma stk_ok_below s s' isr stk :
  stk_ok s stk ->
  (isr = true -> sgrows s s') ->
  (isr = false -> forall g, In g stk -> f_isr g = false /\ at_user g) ->
  stk_ok s' stk.
Proof.
  intros H Hg Hu. induction stk as [|f below IH]; [exact I|]. cbn [stk_ok] in *.
  destruct H as (H1 & H2 & H3 & H4). split; [exact H1|]. split; [|split; [exact H3|]].
  - destruct isr.
    + intros x Hx. eapply ev_grows; [apply Hg; reflexivity| |apply H2; exact Hx]. auto.
    + destruct (Hu eq_refl f ltac:(now left)) as (_ & u & k & E). rewrite E in H1.
      apply safe_user_inv in H1. apply evs_right. apply H1.
  - apply IH; auto. intros E g Hi. apply Hu; [exact E|now right].
Qed.

Lemma tot_holders s l e : tot s (cnt l) e = holders s l e.
Proof. reflexivity. Qed.

Lemma over_bnd s l : over statics s l = false -> bnd s (cnt l).
Proof.
  intros H a Ha. rewrite tot_holders. unfold over in H.
  destruct (Nat.le_gt_cases (holders s l a) 255) as [Hle|Hgt]; [exact Hle|exfalso].
  assert (Hi : In a (all_queued s ++ concat (map (fun x => match x with LRef e => [e] | _ => [] end) l))).
  { unfold holders in Hgt. apply in_app_iff. destruct (Nat.eq_dec (cnt l (LRef a)) 0) as [E|E].
    - left. apply (count_occ_In N.eq_dec). lia.
    - right. apply in_concat. exists [a]. split; [|now left]. apply in_map_iff. exists (LRef a). split; [reflexivity|].
      apply cnt_in. lia. }
  assert (existsb (fun e => negb (is_static statics e) && (255 <? holders s l e)%nat)
    (all_queued s ++ concat (map (fun x => match x with LRef e => [e] | _ => [] end) l)) = true); [|congruence].
  apply existsb_exists. exists a. split; [exact Hi|]. apply andb_true_iff. split; [|apply Nat.ltb_lt; lia].
  apply negb_true_iff. destruct (is_static statics a) eqn:E; [|reflexivity]. apply is_static_stat in E. contradiction.
Qed.

Lemma log_user o log p s : log_queue o log = Some (ao_view s o) -> quiet p ->
  log_queue o (log ++ user_of p) = Some (ao_view s o).
Proof. intros H Hq. unfold log_queue in *. rewrite fold_left_app, H. apply Hq. Qed.

Lemma cstep_inv x ch : CInv x ->
  (exists x', cstep c statics x ch = Ok x' /\ CInv x') \/
  (exists f, cstep c statics x ch = Fault f /\ resource_fault f).
Proof.
  intros HC. destruct x as [s l stk log]. pose proof HC as [HK HB HS HL].
  cbn [c_s c_led c_stk c_log] in *. unfold led_all in HK, HB. cbn [c_led c_stk] in HK, HB.
  destruct ch as [|op|].
  - (* go on *)
    destruct stk as [|top stk]; [left; eexists; split; [reflexivity|exact HC]|].
    cbn [cstep c_stk c_s c_led c_log]. destruct top as [isr led p]. cbn [f_p f_led f_isr] in *.
    cbn [stk_ok f_p f_led f_isr] in HS. destruct HS as (S1 & S2 & S3 & S4). cbn [map concat f_led] in HK, HB.
    destruct p as [v|f|u k].
    + (* return *)
      left. set (l1 := filter _ led ++ l).
      set (stk' := match stk with [] => [mkF false [] (sched_once c)] | _ => stk end).
      exists (mkC s l1 stk' log). split; [destruct stk; reflexivity|].
      assert (Eled : concat (map f_led stk') = concat (map f_led stk)) by (destruct stk; reflexivity).
      assert (Hcnt : forall y, is_right y = true -> (forall e, y = LRef e -> ~ stat statics e) ->
                cnt (led_all (mkC s l1 stk' log)) y = cnt ((led ++ concat (map f_led stk)) ++ l) y).
      { intros y Hy Hns. unfold led_all. cbn [c_stk c_led]. rewrite Eled. unfold l1. rewrite !cnt_app, cnt_keep; [lia|].
        rewrite Hy. cbn [andb]. destruct y as [| |e| | | | | |]; try reflexivity. apply negb_true_iff.
        destruct (is_static statics e) eqn:E; [|reflexivity]. apply is_static_stat in E. exfalso. eapply Hns; eauto. }
      constructor; cbn [c_s c_led c_stk c_log].
      * eapply KInv_ext2; [exact Hcnt|exact HK].
      * intros a Ha. unfold tot. rewrite Hcnt; [apply HB; exact Ha|reflexivity|].
        intros e E. injection E as <-. exact Ha.
      * unfold stk'. destruct stk as [|g stk]; [|exact S4]. cbn [stk_ok f_p f_led f_isr map concat].
        split; [now apply safe_T, safe_sched|]. split; [intros y []|]. split; [intros _ g []|exact I].
      * exact HL.
    + (* atom *)
      set (env := fun x => cnt (concat (map f_led stk) ++ l) x).
      assert (ELc : forall led0 x, Lc led0 env x = cnt (led0 ++ concat (map f_led stk) ++ l) x).
      { intros led0 x. unfold Lc, env. now rewrite !cnt_app. }
      destruct (safeT_atom_inv _ _ _ S1 s env (cnt (concat (map f_led stk)))) as [Hf Hs].
      { intros y. unfold env. rewrite cnt_app. lia. }
      { eapply KInv_ext; [|exact HK]. intros y _. rewrite ELc. now rewrite app_assoc. }
      { intros a Ha. unfold tot. rewrite ELc, app_assoc. now apply HB. }
      { exact S2. }
      destruct (f s) as [[[s' labs] p']|flt] eqn:Ef.
      2:{ right. exists flt. split; [reflexivity|]. now apply Hf. }
      left. destruct (over statics s' (fold_left led_step labs led ++ concat (map f_led stk) ++ l) || stranded s') eqn:Eov.
      { eexists. split; [reflexivity|exact HC]. }
      apply orb_false_iff in Eov. destruct Eov as [Eov Ens]. specialize (Hs s' labs p' eq_refl Ens). cbn zeta in Hs.
      set (led' := fold_left led_step labs led) in *. destruct Hs as ((K1 & K2 & K3 & K4) & K5).
      eexists. split; [reflexivity|]. constructor; unfold led_all; cbn [c_s c_led c_stk c_log map concat f_led].
      * eapply KInv_ext; [|exact K1]. intros y _. rewrite ELc. now rewrite app_assoc.
      * apply over_bnd in Eov. now rewrite <- app_assoc.
      * cbn [stk_ok f_p f_led f_isr]. split; [exact K5|]. split; [exact K2|]. split; [exact S3|].
        eapply stk_ok_below; [exact S4|exact K3|exact S3].
      * intros o. unfold log_queue in *. rewrite !fold_left_app, HL. apply K4.
    + (* application code ends *)
      left. apply safe_user_inv in S1. destruct S1 as (R1 & R2 & R3).
      eexists. split; [reflexivity|]. constructor; cbn [c_s c_led c_stk c_log].
      * exact HK.
      * exact HB.
      * cbn [stk_ok f_p f_led f_isr]. auto.
      * intros o. apply log_user; auto.
  - (* call *)
    left. destruct stk as [|top stk]; [eexists; split; [reflexivity|exact HC]|].
    cbn [cstep c_stk c_s c_led c_log]. destruct (f_p top) as [v|f|u k] eqn:Ep;
      try (eexists; split; [reflexivity|exact HC]).
    destruct (grab c statics s l (concat (map f_led (top :: stk))) (f_isr top) op) as [[mine l']|] eqn:Eg;
      [|eexists; split; [reflexivity|exact HC]].
    destruct (grab_spec _ _ _ _ _ _ _ _ HK Eg) as (G1 & G2 & G3).
    eexists. split; [reflexivity|].
    assert (Hcnt : forall y, is_right y = true ->
       cnt (led_all (mkC s l' (mkF (f_isr top) mine (api c op) :: top :: stk) log)) y =
       cnt (concat (map f_led (top :: stk)) ++ l) y).
    { intros y Hy. unfold led_all. cbn [c_stk c_led]. cbn [map concat f_led]. rewrite !cnt_app.
      specialize (G2 y Hy). lia. }
    constructor; cbn [c_s c_led c_stk c_log].
    + eapply KInv_ext; [exact Hcnt|exact HK].
    + intros a Ha. unfold tot. rewrite Hcnt by reflexivity. now apply HB.
    + cbn [stk_ok f_p f_led f_isr] in *. split; [exact G1|]. split; [exact G3|]. split; [|exact HS].
      intros Ei g [<-|Hi].
      * split; [exact Ei|]. exists u, k. exact Ep.
      * now apply HS.
    + exact HL.
  - (* interrupt *)
    left. eexists. split; [destruct stk; reflexivity|]. constructor; cbn [c_s c_led c_stk c_log]; unfold led_all;
      cbn [c_led c_stk map concat f_led app]; auto.
    cbn [stk_ok f_p f_led f_isr]. split.
    { constructor; [intros y []|apply quiet_ret|constructor]. }
    split; [intros y []|]. split; [discriminate|exact HS].
Qed.

Lemma crun_inv chs : forall x, CInv x ->
  (exists x', crun c statics x chs = Ok x' /\ CInv x') \/
  (exists f, crun c statics x chs = Fault f /\ resource_fault f).
Proof.
  induction chs as [|ch t IH]; intros x HC; cbn [crun].
  - left. eauto.
  - destruct (cstep_inv x ch HC) as [(x' & E & HC')|(f & E & Hf)]; rewrite E; cbn [bind].
    + apply IH. exact HC'.
    + right. eauto.
Qed.

Lemma conf0_inv s : KInv s (fun _ => 0%nat) -> (forall o, ao_view s o = []) -> (all_queued s = []) ->
  CInv (conf0 s).
Proof.
  intros HI Hv Hq. constructor; unfold conf0, led_all; cbn [c_s c_led c_stk c_log map concat f_led app].
  - exact HI.
  - intros a _. rewrite tot_holders. unfold holders. rewrite Hq. cbn. lia.
  - cbn [stk_ok f_p f_led f_isr]. split; [constructor; [intros y []|apply quiet_ret|constructor]|].
    split; [intros y []|]. split; [intros _ g []|exact I].
  - intros o. rewrite Hv. reflexivity.
Qed.
End R.
