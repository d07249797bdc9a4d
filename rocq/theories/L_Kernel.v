(** Proofs: the kernel under every interleaving of tasks and interrupts. *)
From Verif Require Import Base L_Base M_RdyGrp S_RdyGrp L_RdyGrp M_Queue S_Queue L_Queue
  M_MemPool S_MemPool L_MemPool M_Kernel S_Kernel L_KMem L_KQueue.
Local Open Scope N_scope.

(** ** Ledgers as multisets *)
Lemma cnt_cons x l y : cnt (x :: l) y = ((if litem_dec x y then 1 else 0) + cnt l y)%nat.
Proof. unfold cnt. simpl. destruct (litem_dec x y); reflexivity. Qed.
Lemma cnt_app l1 l2 y : cnt (l1 ++ l2) y = (cnt l1 y + cnt l2 y)%nat.
Proof. apply count_occ_app. Qed.
Lemma cnt_rem1 x l y : cnt (rem1 x l) y = (cnt l y - (if litem_dec x y then 1 else 0))%nat.
Proof.
  induction l as [|z t IH]; [destruct (litem_dec x y); reflexivity|].
  cbn [rem1]. destruct (litem_dec x z) as [<-|Hne].
  - rewrite cnt_cons. destruct (litem_dec x y); lia.
  - rewrite !cnt_cons, IH. destruct (litem_dec z y), (litem_dec x y); try congruence; lia.
Qed.
Lemma cnt_in l x : (0 < cnt l x)%nat <-> In x l.
Proof. unfold cnt. symmetry. apply count_occ_In. Qed.
Lemma cnt_filter l y : is_right y = true -> cnt (filter is_right l) y = cnt l y.
Proof.
  intros Hy. induction l as [|x t IH]; [reflexivity|]. cbn [filter].
  destruct (is_right x) eqn:E.
  - now rewrite !cnt_cons, IH.
  - rewrite cnt_cons, IH. destruct (litem_dec x y); [congruence|reflexivity].
Qed.
Lemma cnt_keep (P : litem -> bool) l y : P y = true -> cnt (filter P l) y = cnt l y.
Proof.
  intros Hy. induction l as [|x t IH]; [reflexivity|]. cbn [filter].
  destruct (P x) eqn:E.
  - now rewrite !cnt_cons, IH.
  - rewrite cnt_cons, IH. destruct (litem_dec x y); [congruence|reflexivity].
Qed.
Lemma in_rem1 x y l : In y (rem1 x l) -> In y l.
Proof.
  induction l as [|z t IH]; [auto|]. cbn [rem1]. destruct (litem_dec x z); simpl; intuition.
Qed.
Lemma in_rem1_ne x y l : x <> y -> In y l -> In y (rem1 x l).
Proof.
  intros Hne Hi. apply cnt_in. rewrite cnt_rem1. apply cnt_in in Hi. destruct (litem_dec x y); [congruence|lia].
Qed.
Lemma has_in l x : has l x = true <-> In x l.
Proof. unfold has. destruct (in_dec litem_dec x l); split; auto; discriminate. Qed.

Definition Lc (led : list litem) (env : litem -> nat) (x : litem) : nat := (cnt led x + env x)%nat.

Section K.
Context (c : kcfg) (statics : list (N * N)) (PB : list (list N)) (m0 : @mem cell) (RS : list N) (prios : list N) (nd : nat).
Context (OK : pb_ok c statics PB).
Context (Hmax : 1 <= max_sma (q_rg (k_qc c)) <= 64) (Hasrt : q_asrt (k_qc c) = true).

Definition tot (s : kst) (L : litem -> nat) (a : N) : nat := (refs s a + L (LRef a))%nat.

Record KInv (s : kst) (L : litem -> nat) : Prop := {
  ki_next : k_next s = N.of_nat (length PB);
  ki_mgr : forall i, (i < length PB)%nat -> nth_error (k_mgr s) i = Some (Some i);
  ki_bs : forall i p, (i < length PB)%nat -> nth_error (k_ep s) i = Some p -> nth_error RS i = Some (mp_bsize p);
  ki_mem : KM c statics PB m0 (k_mem s) (k_ep s) (tot s L) (fun i a => L (LRaw i a))
              (fun a => L (LFresh a)) (fun i a => L (LDead i a));
  ki_q : KQ c prios nd (k_ao s) (k_dq s) (k_sp s) (k_rg s) (k_ch s) }.

Definition bnd (s : kst) (L : litem -> nat) : Prop := forall a, ~ stat statics a -> (tot s L a <= 255)%nat.

Lemma KInv_ext s L L' : (forall x, is_right x = true -> L' x = L x) -> KInv s L -> KInv s L'.
Proof.
  intros E []. constructor; auto. eapply KM_ext; [exact ki_mem0| | | |].
  - intros a. unfold tot. now rewrite E.
  - intros i a. now rewrite E.
  - intros a. now rewrite E.
  - intros i a. now rewrite E.
Qed.

(** Evidence. *)
Definition ev (s : kst) (env : litem -> nat) (x : litem) : Prop :=
  match x with
  | LLive e => In e (all_queued s) \/ (0 < env (LRef e))%nat
  | LSel o => exists a, nth_error (k_ao s) o = Some a /\ reg (k_sp s) a o /\ q_view (ao_q a) <> []
  | LReg o => exists a, nth_error (k_ao s) o = Some a /\ reg (k_sp s) a o
  | LAct o => exists a, nth_error (k_ao s) o = Some a /\ ao_prio a < max_sma (q_rg (k_qc c)) /\
                nth_error (k_sp s) (N.to_nat (ao_prio a)) = Some None
  | LActd o => exists a, nth_error (k_ao s) o = Some a /\ q_good (ao_q a) /\ q_view (ao_q a) = [] /\ ~ reg (k_sp s) a o
  | _ => True
  end.
Definition evs (s : kst) (env : litem -> nat) (led : list litem) : Prop :=
  forall x, In x led -> ev s env x.

Definition sgrows (s s' : kst) : Prop :=
  grows (k_ao s) (k_ao s') (k_dq s) (k_dq s') (k_sp s) (k_sp s').

Lemma ev_grows s s' env env' x : sgrows s s' ->
  (forall e, (0 < env (LRef e))%nat -> (0 < env' (LRef e))%nat) -> ev s env x -> ev s' env' x.
Proof.
  intros (Hsp & HA & HD) Henv. destruct x as [i a|a|a|i a|e|o|o|o|o]; cbn [ev]; auto; rewrite ?Hsp.
  - intros [H|H]; [left|auto]. rewrite in_all_queued in *. destruct H as [(o & a & Ho & He)|(d & q & Hd & He)].
    + destruct (HA o a Ho) as (a' & Ho' & _ & Hi & _). left. exists o, a'. auto.
    + destruct (HD d q Hd) as (q' & Hd' & Hi). right. exists d, q'. auto.
  - intros (a & Ho & Hr & Hv). destruct (HA o a Ho) as (a' & Ho' & Hp & Hi & _).
    exists a'. split; [exact Ho'|]. split; [unfold reg in *; now rewrite Hp|].
    intros Hn. rewrite Hn in Hi. apply Hv. destruct (q_view (ao_q a)) as [|x l]; [reflexivity|].
    exfalso. apply (Hi x). now left.
  - intros (a & Ho & Hr). destruct (HA o a Ho) as (a' & Ho' & Hp & _).
    exists a'. split; [exact Ho'|]. unfold reg in *; now rewrite Hp.
  - intros (a & Ho & Hlt & Hs). destruct (HA o a Ho) as (a' & Ho' & Hp & _).
    exists a'. rewrite Hp. auto.
  - intros (a & Ho & Hg & Hv & Hr). destruct (HA o a Ho) as (a' & Ho' & _ & _ & E).
    rewrite (E Hr) in Ho'. exists a. auto.
Qed.

(** What the log says about queues. *)
Definition effl (s : kst) (labs : list klab) (s' : kst) : Prop :=
  forall o, fold_left (log_step o) (map EL labs) (Some (ao_view s o)) = Some (ao_view s' o).
Definition eff (s : kst) (labs : list klab) (p : prog) (s' : kst) : Prop :=
  forall o, fold_left (log_step o) (user_of p) (fold_left (log_step o) (map EL labs) (Some (ao_view s o)))
            = Some (ao_view s' o).
Definition quiet (p : prog) : Prop := forall o l, fold_left (log_step o) (user_of p) (Some l) = Some l.
Lemma effl_eff s labs p s' : effl s labs s' -> quiet p -> eff s labs p s'.
Proof. intros H Hq o. rewrite (H o). apply Hq. Qed.
Lemma effl_app s labs s1 labs' s2 : effl s labs s1 -> effl s1 labs' s2 -> effl s (labs ++ labs') s2.
Proof. intros H1 H2 o. rewrite map_app, fold_left_app, (H1 o). apply H2. Qed.
Lemma user_pseq p k : user_of (pseq p k) = match p with Ret v => user_of (k v) | _ => user_of p end.
Proof. destruct p; reflexivity. Qed.
Lemma quiet_pseq p k : quiet p -> (forall v, quiet (k v)) -> quiet (pseq p k).
Proof. intros H Hk o l. rewrite user_pseq. destruct p; auto. apply Hk. Qed.
Lemma quiet_ret v : quiet (Ret v).
Proof. intros o l. reflexivity. Qed.
Lemma quiet_atom f : quiet (Atom f).
Proof. intros o l. reflexivity. Qed.
Hint Resolve quiet_ret quiet_atom : core.

(** ** Programs that keep the invariant *)
Inductive safe (isr : bool) : prog -> list litem -> Prop :=
| safe_ret v led : safe isr (Ret v) led
| safe_user u k led : (forall x, In x led -> is_right x = true) -> quiet k -> safe isr k led -> safe isr (User u k) led
| safe_atom f led :
    (forall s env lo, (forall x, lo x <= env x)%nat -> KInv s (Lc led env) -> bnd s (Lc led env) -> evs s lo led ->
       (forall flt, f s = Fault flt -> resource_fault flt) /\
       forall s' labs p', f s = Ok (s', labs, p') ->
         let led' := fold_left led_step labs led in
         (KInv s' (Lc led' env) /\ evs s' lo led' /\ (isr = true -> sgrows s s') /\ eff s labs p' s') /\
         safe isr p' led') ->
    safe isr (Atom f) led.

Lemma safe_pseq isr k : (forall v led, safe isr (k v) led) -> (forall v, quiet (k v)) ->
  forall p led, safe isr p led -> safe isr (pseq p k) led.
Proof.
  intros Hk Hq. fix IH 3. intros p led H. destruct H as [v led|u p led Hr Hu H|f led H]; cbn [pseq].
  - apply Hk.
  - constructor; [exact Hr|apply quiet_pseq; assumption|]. apply IH. exact H.
  - constructor. intros s env lo Hlo HI Hb He. specialize (H s env lo Hlo HI Hb He). destruct H as [Hf Hs]. split.
    + intros flt E. apply Hf. destruct (f s) as [[[s1 l1] p1]|]; [discriminate|congruence].
    + intros s' labs p' E. destruct (f s) as [[[s1 l1] p1]|] eqn:Efs; [|discriminate].
      injection E as E1 E2 E3. subst s' labs p'.
      specialize (Hs s1 l1 p1 eq_refl). cbn zeta in Hs |- *. destruct Hs as [Ha Hs].
      split; [|apply IH; exact Hs]. destruct Ha as (A1 & A2 & A3 & A4).
      split; [exact A1|]. split; [exact A2|]. split; [exact A3|].
      intros o. specialize (A4 o). rewrite user_pseq. destruct p1; [|exact A4|exact A4].
      cbn [user_of] in A4. unfold fold_left at 1 in A4. rewrite A4. apply Hq.
Qed.

(** *** References *)
Definition holds (led : list litem) (e : N) : Prop :=
  stat statics e \/ In (LFresh e) led \/ In (LRef e) led \/ In (LLive e) led.

Lemma holds_usable s env lo led e : (forall x, lo x <= env x)%nat -> evs s lo led -> holds led e ->
  usable statics (tot s (Lc led env)) (fun a => Lc led env (LFresh a)) e.
Proof.
  intros Hlo He [H|[H|[H|H]]]; unfold usable, tot, Lc; [now left|right; right|right; left|right; left].
  - apply cnt_in in H. lia.
  - apply cnt_in in H. lia.
  - apply He in H. cbn [ev] in H. specialize (Hlo (LRef e)). destruct H as [H|H]; [apply refs_in in H|]; lia.
Qed.

(** A held event is fresh in the holder's ledger or not at all. *)
Lemma holds_fresh s env lo led e : (forall x, lo x <= env x)%nat ->
  KInv s (Lc led env) -> evs s lo led -> holds led e ->
  Lc (rem1 (LFresh e) led) env (LFresh e) = 0%nat.
Proof.
  intros Hlo HI He H. pose proof (ki_mem _ _ HI) as HM. unfold Lc. rewrite cnt_rem1.
  destruct (litem_dec (LFresh e) (LFresh e)) as [_|]; [|congruence].
  destruct (Nat.eq_dec (Lc led env (LFresh e)) 0) as [E|E]; [unfold Lc in E; lia|].
  destruct (KM_fresh _ _ _ _ _ _ _ _ _ _ e HM ltac:(cbv beta; lia)) as (i & Hi & (H1 & _ & H3 & _) & _).
  cbv beta in H3. unfold Lc in H3. unfold tot, Lc in H1.
  destruct H as [H|[H|[H|H]]].
  - exfalso. eapply (pb_stat _ _ _ OK); eauto.
  - apply cnt_in in H. lia.
  - apply cnt_in in H. lia.
  - apply He in H. cbn [ev] in H. specialize (Hlo (LRef e)). destruct H as [H|H]; [apply refs_in in H|]; lia.
Qed.

Lemma inc_led s env lo led e : (forall x, lo x <= env x)%nat ->
  KInv s (Lc led env) -> evs s lo led -> holds led e ->
  exists m', inc_ref s e = Ok (set_mem s m') /\
    (forall a, ~ (exists i, inpool PB i a) -> m' a = k_mem s a) /\
    forall T' F', (forall a, a <> e -> T' a = tot s (Lc led env) a /\ F' a = Lc led env (LFresh a)) ->
      F' e = 0%nat -> T' e = S (tot s (Lc led env) e) ->
      KM c statics PB m0 m' (k_ep s) T' (fun i a => Lc led env (LRaw i a)) F' (fun i a => Lc led env (LDead i a)).
Proof.
  intros Hlo HI He H. pose proof (holds_usable _ _ _ _ _ Hlo He H) as Hu.
  exact (KM_inc c statics PB m0 OK s (k_ep s) _ _ _ _ e (ki_mem _ _ HI) Hu).
Qed.

(** RKH_INC_REF without a queue. *)
Lemma inc_ref_led s env lo led e : (forall x, lo x <= env x)%nat ->
  KInv s (Lc led env) -> evs s lo led -> holds led e ->
  exists m', inc_ref s e = Ok (set_mem s m') /\
    (forall a, ~ (exists i, inpool PB i a) -> m' a = k_mem s a) /\
    KInv (set_mem s m') (Lc (led_step led (KInc e)) env).
Proof.
  intros Hlo HI He H. destruct (inc_led s env lo led e Hlo HI He H) as (m' & E & Hfr & HK).
  exists m'. split; [exact E|]. split; [exact Hfr|].
  pose proof (holds_fresh _ _ _ _ _ Hlo HI He H) as HF0.
  constructor; try apply HI. cbn [k_mem k_ep set_mem].
  eapply KM_ext; [apply (HK (tot (set_mem s m') (Lc (led_step led (KInc e)) env))
                            (fun a => Lc (led_step led (KInc e)) env (LFresh a)))| | | |]; [| | |reflexivity| |reflexivity|].
  - intros a Ha. unfold tot, Lc. cbn [led_step]. change (refs (set_mem s m') a) with (refs s a).
    rewrite !cnt_cons, !cnt_rem1. repeat destruct litem_dec; try congruence; lia.
  - unfold Lc in *. cbn [led_step]. rewrite cnt_cons. destruct litem_dec; [congruence|]. lia.
  - unfold tot, Lc. cbn [led_step]. change (refs (set_mem s m') e) with (refs s e).
    rewrite cnt_cons, cnt_rem1. repeat destruct litem_dec; try congruence; lia.
  - intros i a. unfold Lc. cbn [led_step]. rewrite cnt_cons, cnt_rem1. repeat destruct litem_dec; try congruence; lia.
  - intros i a. unfold Lc. cbn [led_step]. rewrite cnt_cons, cnt_rem1. repeat destruct litem_dec; try congruence; lia.
Qed.

Lemma put_unfold (b : bool) q g e :
  (if b then queue_put_lifo (k_qc c) q g (Some e) else queue_put_fifo (k_qc c) q g (Some e)) = put c b q g e.
Proof. reflexivity. Qed.

Lemma effl_put s s' lifo o a q' e : nth_error (k_ao s) o = Some a ->
  k_ao s' = upd (k_ao s) o (mkAo (ao_prio a) q') -> q_view q' = put_view lifo (q_view (ao_q a)) e ->
  effl s [KPut lifo o e] s'.
Proof.
  intros Ho E Hv o'. cbn [map fold_left log_step]. unfold ao_view. rewrite E.
  destruct (Nat.eqb_spec o' o) as [->|Hne].
  - rewrite nth_upd_eq by (eapply nth_some_lt; eauto). rewrite Ho. cbn [ao_q]. rewrite Hv.
    destruct lifo; reflexivity.
  - rewrite nth_upd_ne by auto. reflexivity.
Qed.

(** Post. *)
Lemma post_led lifo s env lo led o a e : (forall x, lo x <= env x)%nat ->
  KInv s (Lc led env) -> evs s lo led -> holds led e ->
  nth_error (k_ao s) o = Some a -> reg (k_sp s) a o ->
  post_sec c lifo s o e = Fault (FAssert (if lifo then 265 else 223)%nat) \/
  exists s' q', post_sec c lifo s o e = Ok (s', [KPut lifo o e]) /\
    KInv s' (Lc (led_step led (KPut lifo o e)) env) /\ evs s' lo (led_step led (KPut lifo o e)) /\
    sgrows s s' /\
    k_ao s' = upd (k_ao s) o (mkAo (ao_prio a) q') /\ q_view q' = put_view lifo (q_view (ao_q a)) e /\
    k_dq s' = k_dq s /\ k_ch s' = k_ch s /\ k_sp s' = k_sp s /\
    effl s [KPut lifo o e] s' /\
    (forall x, ~ (exists i, inpool PB i x) -> k_mem s' x = k_mem s x).
Proof.
  intros Hlo HI He H Ho Hr. destruct (inc_led s env lo led e Hlo HI He H) as (m' & E & Hfr & HK).
  pose proof (holds_fresh _ _ _ _ _ Hlo HI He H) as HF0.
  unfold post_sec. rewrite E. cbn [bind]. cbn [k_ao k_rg set_mem].
  rewrite (proj2 (rd_ok _ _ _) Ho). cbn [bind]. rewrite put_unfold.
  destruct (KQ_post c prios nd Hmax Hasrt _ _ _ _ _ lifo o a e (ki_q _ _ HI) Ho Hr)
    as [(_ & Ep)|(Hlen & q' & g' & Ep & Hv & Hne & HQ)].
  - left. rewrite Ep. reflexivity.
  - right. rewrite Ep. cbn [bind]. rewrite wr_lt by (eapply nth_some_lt; eauto). cbn [bind].
    do 2 eexists. split; [reflexivity|].
    set (ao' := upd (k_ao s) o (mkAo (ao_prio a) q')).
    assert (Hg : sgrows s (set_rg (set_ao (set_mem s m') ao') g')).
    { unfold sgrows. cbn [k_ao k_dq k_sp set_rg set_ao set_mem]. apply grows_post; auto.
      rewrite Hv. intros x Hx. apply put_view_in. auto. }
    assert (Hrefs : forall x, refs (set_rg (set_ao (set_mem s m') ao') g') x =
                    (refs s x + if N.eq_dec e x then 1 else 0)%nat).
    { intros x. pose proof (refs_ao ao' s o a q' x Ho eq_refl) as H1.
      rewrite Hv, put_view_count in H1.
      change (refs (set_rg (set_ao (set_mem s m') ao') g') x) with (refs (set_ao s ao') x). lia. }
    split; [|split; [|split; [exact Hg|]]].
    + constructor; try apply HI; cbn [k_mem k_ep k_ao k_dq k_sp k_rg k_ch set_rg set_ao set_mem]; [|exact HQ].
      eapply KM_ext;
        [apply (HK (tot (set_rg (set_ao (set_mem s m') ao') g') (Lc (led_step led (KPut lifo o e)) env))
                   (fun a => Lc (led_step led (KPut lifo o e)) env (LFresh a)))| | | |]; [| | |reflexivity| |reflexivity|].
      * intros x Hx. unfold tot. rewrite Hrefs. unfold Lc. cbn [led_step]. rewrite !cnt_cons, !cnt_rem1.
        destruct (N.eq_dec e x); [congruence|]. repeat destruct litem_dec; try congruence; lia.
      * unfold Lc in *. cbn [led_step]. rewrite cnt_cons. destruct litem_dec; [congruence|]. lia.
      * unfold tot. rewrite Hrefs. unfold Lc. cbn [led_step]. rewrite cnt_cons, cnt_rem1.
        destruct (N.eq_dec e e); [|congruence]. repeat destruct litem_dec; try congruence; lia.
      * intros i x. unfold Lc. cbn [led_step]. rewrite cnt_cons, cnt_rem1. repeat destruct litem_dec; try congruence; lia.
      * intros i x. unfold Lc. cbn [led_step]. rewrite cnt_cons, cnt_rem1. repeat destruct litem_dec; try congruence; lia.
    + intros x [<-|Hx].
      * cbn [ev]. left. apply refs_in. rewrite Hrefs. destruct (N.eq_dec e e); [lia|congruence].
      * apply in_rem1 in Hx. eapply ev_grows; [exact Hg| |apply He; exact Hx]. auto.
    + cbn [k_ao k_dq k_sp k_ch k_mem set_rg set_ao set_mem]. do 5 (split; [try reflexivity; try exact Hv|]).
      split; [|exact Hfr]. eapply effl_put; [exact Ho|reflexivity|exact Hv].
Qed.
Lemma rf_post (lifo : bool) : resource_fault (FAssert (if lifo then 265 else 223)%nat).
Proof. unfold resource_fault. destruct lifo; simpl; auto. Qed.

Lemma safe_post isr lifo o e led :
  holds led e -> In (LReg o) led -> safe isr (sma_post c lifo o e) led.
Proof.
  intros H Hr. constructor. intros s env lo Hlo HI Hb He.
  destruct (He _ Hr) as (a & Ho & Hreg).
  destruct (post_led lifo s env lo led o a e Hlo HI He H Ho Hreg) as [E|(s' & q' & E & HI' & He' & Hg & _ & _ & _ & _ & _ & Hef & _)]; rewrite E; cbn [bind].
  - split; [|discriminate]. intros flt Ef. injection Ef as <-. apply rf_post.
  - split; [discriminate|]. intros s1 l1 p1 E1. injection E1 as <- <- <-. cbn zeta. cbn [fold_left].
    split; [auto using effl_eff|constructor].
Qed.

Lemma safe_reserve isr e led : holds led e -> safe isr (fwk_reserve e) led.
Proof.
  intros H. constructor. intros s env lo Hlo HI Hb He.
  destruct (inc_ref_led s env lo led e Hlo HI He H) as (m' & E & _ & HI'). rewrite E. cbn [bind].
  split; [discriminate|]. intros s1 l1 p1 E1. injection E1 as <- <- <-. cbn zeta. cbn [fold_left].
  assert (Hg : sgrows s (set_mem s m')) by apply grows_refl.
  split; [|constructor]. split; [exact HI'|]. split; [|split; [auto|intros ?; reflexivity]].
  intros x [<-|Hx]; [exact I|]. apply in_rem1 in Hx. eapply ev_grows; [exact Hg| |apply He; exact Hx]. auto.
Qed.

(** *** Garbage collection *)
Lemma KI_pool s L i : KInv s L -> (i < length PB)%nat -> exists p, nth_error (k_ep s) i = Some p.
Proof.
  intros HI Hi. destruct (nth_error PB i) as [B|] eqn:E; [|apply nth_error_None in E; lia].
  destruct (km_pool _ _ _ _ _ _ _ _ _ _ (ki_mem _ _ HI) i B E) as (p & _ & Hp & _). eauto.
Qed.
Lemma bs_upd s L i p p' : KInv s L -> nth_error (k_ep s) i = Some p -> mp_bsize p' = mp_bsize p ->
  forall j q, (j < length PB)%nat -> nth_error (upd (k_ep s) i p') j = Some q -> nth_error RS j = Some (mp_bsize q).
Proof.
  intros HI Hp Hb j q Hj Hq. destruct (Nat.eq_dec i j) as [<-|Hne].
  - rewrite nth_upd_eq in Hq by (eapply nth_some_lt; eauto). injection Hq as <-. rewrite Hb.
    eapply ki_bs; eauto.
  - rewrite nth_upd_ne in Hq by auto. eapply ki_bs; eauto.
Qed.
Lemma inpool_lt i a : inpool PB i a -> (i < length PB)%nat.
Proof. intros (B & HB & _). eapply nth_some_lt; eauto. Qed.

Lemma safe_put isr i e led :
  In (LDead i e) led ->
  safe isr (Atom (fun s => do s <- evtPool_put c s (Some i) e; Ok (s, [KFree i e], Ret 0))) led.
Proof.
  intros Hd. constructor. intros s env lo Hlo HI Hb He.
  assert (HD : (0 < Lc led env (LDead i e))%nat) by (apply cnt_in in Hd; unfold Lc; lia).
  pose proof (km_D _ _ _ _ _ _ _ _ _ _ (ki_mem _ _ HI) i e HD) as Hin.
  destruct (KI_pool s _ i HI (inpool_lt _ _ Hin)) as [p Hp].
  destruct (KM_put c statics PB m0 OK s _ _ _ _ i p e (ki_mem _ _ HI) HD Hp)
    as (p' & m' & E & _ & Hbs & _ & Hfr & HK).
  unfold evtPool_put. cbn [rassert orb bind]. rewrite (proj2 (rd_ok _ _ _) Hp). cbn [bind]. rewrite E. cbn [bind].
  rewrite wr_lt by (eapply nth_some_lt; eauto). cbn [bind].
  split; [discriminate|]. intros s1 l1 p1 E1. injection E1 as <- <- <-. cbn zeta. cbn [fold_left led_step].
  assert (HD1 : Lc led env (LDead i e) = 1%nat).
  { destruct (KM_blk _ _ _ _ _ _ _ _ _ _ i e (ki_mem _ _ HI) Hin) as (p0 & ow & B & HB & Ha & Hp0 & Hv & Hbk).
    unfold blk in Hbk. lia. }
  match goal with |- (KInv ?s1 _ /\ _) /\ _ => assert (Hg : sgrows s s1) by apply grows_refl end.
  split; [|constructor]. split; [|split; [|split; [auto|intros ?; reflexivity]]].
  - constructor; try apply HI; cbn [k_mem k_ep set_pools set_mem]; [eapply bs_upd; eauto|].
    eapply KM_ext; [apply (HK (fun j x => Lc (rem1 (LDead i e) led) env (LDead j x)))| | | |].
    + intros j x Hjx. unfold Lc. rewrite cnt_rem1. destruct litem_dec as [Ed|]; [injection Ed; intros; subst; tauto|lia].
    + unfold Lc in *. rewrite cnt_rem1. destruct litem_dec; [|congruence]. apply cnt_in in Hd. lia.
    + intros x. unfold tot, Lc. rewrite cnt_rem1. destruct litem_dec; [congruence|].
      match goal with |- (refs ?s1 x + _ = _)%nat => change (refs s1 x) with (refs s x) end. lia.
    + intros j x. unfold Lc. rewrite cnt_rem1. destruct litem_dec; [congruence|lia].
    + intros x. unfold Lc. rewrite cnt_rem1. destruct litem_dec; [congruence|lia].
    + reflexivity.
  - intros x Hx. apply in_rem1 in Hx. eapply ev_grows; [exact Hg| |apply He; exact Hx]. auto.
Qed.

(** The critical section of rkh_fwk_gc, for a reference held to a pool event. *)
Lemma safe_gc2 isr e i0 led :
  In (LRef e) led -> inpool PB i0 e ->
  safe isr (Atom (fun s =>
      do (sig, nref, pool) <- hdr_rd (k_mem s) e;
      if 1 <? nref then
        do m <- hdr_wr (k_mem s) e sig (nref - 1) pool;
        Ok (set_mem s m, [KDec e], Ret 0)
      else
        let idx := u8 (pool + 255) in
        do! rassert (q_asrt (k_qc c)) 105 (idx <? k_next s);
        do ep <- rd (k_mgr s) (N.to_nat idx);
        Ok (s, match ep with Some j => [KDead j e] | None => [] end, Atom (fun s =>
          do s <- evtPool_put c s ep e;
          Ok (s, match ep with Some j => [KFree j e] | None => [] end, Ret 0))))) led.
Proof.
  intros Hi Hin. constructor. intros s env lo Hlo HI Hb He. pose proof (inpool_lt _ _ Hin) as Hlt.
  pose proof (pb_len _ _ _ OK) as HL.
  assert (Hpos : (0 < tot s (Lc led env) e)%nat) by (apply cnt_in in Hi; unfold tot, Lc; lia).
  pose proof (Hb e (pb_stat _ _ _ OK _ _ Hin)) as Hle.
  destruct (Nat.eq_dec (tot s (Lc led env) e) 1) as [E1|E1].
  - destruct (KM_hdr c statics PB m0 OK _ _ _ _ _ _ e (ki_mem _ _ HI)) as (_ & Hh & _).
    destruct (Hh i0 Hin Hpos) as [sig Eh]. rewrite Eh. cbn [bind]. rewrite E1.
    change (1 <? u8 (N.of_nat 1)) with false. cbv iota zeta.
    replace (u8 (N.of_nat i0 + 1 + 255)) with (N.of_nat i0).
    2:{ unfold u8. replace (N.of_nat i0 + 1 + 255) with (N.of_nat i0 + 1 * 256) by lia.
        rewrite N.mod_add by lia. rewrite N.mod_small; lia. }
    rewrite (ki_next _ _ HI). replace (N.of_nat i0 <? N.of_nat (length PB)) with true by lia.
    rewrite rassert_true. cbn [bind]. rewrite Nat2N.id.
    rewrite (proj2 (rd_ok _ _ _) (ki_mgr _ _ HI i0 Hlt)). cbn [bind].
    split; [discriminate|]. intros s1 l1 p1 E2. injection E2 as <- <- <-. cbn zeta. cbn [fold_left led_step].
    split; [|apply safe_put; now left]. split; [|split; [|split; [intros _; apply grows_refl|intros ?; reflexivity]]].
    + constructor; try apply HI. eapply KM_relabel; [exact OK|apply HI|exact Hin|cbv beta; lia| | |].
      * intros x Hx. unfold tot, Lc. rewrite !cnt_cons, !cnt_rem1.
        repeat destruct litem_dec; try congruence; lia.
      * intros j x Hx. unfold Lc. rewrite !cnt_cons, !cnt_rem1.
        split; repeat destruct litem_dec; try congruence; try lia.
        match goal with E : _ = _ |- _ => inversion E; subst; exfalso; tauto end.
      * destruct (KM_live _ _ _ _ _ _ _ _ _ _ i0 e (ki_mem _ _ HI) Hin Hpos) as ((HW & HF & HD) & _).
        cbv beta in HW, HF, HD. unfold tot, Lc in *. rewrite !cnt_cons, !cnt_rem1.
        apply cnt_in in Hi. repeat destruct litem_dec; try congruence; lia.
    + intros x [<-|Hx]; [exact I|]. apply in_rem1 in Hx. apply He. exact Hx.
  - destruct (KM_dec c statics PB m0 OK _ _ _ _ _ _ e i0 (ki_mem _ _ HI) Hin) as (sig & m' & Eh & Ew & Hfr & HK).
    { cbv beta. lia. }
    rewrite Eh. cbn [bind]. replace (1 <? N.of_nat (tot s (Lc led env) e)) with true by lia.
    cbv iota. rewrite Ew. cbn [bind].
    split; [discriminate|]. intros s1 l1 p1 E2. injection E2 as <- <- <-. cbn zeta. cbn [fold_left led_step].
    assert (Hg : sgrows s (set_mem s m')) by apply grows_refl.
    split; [|constructor]. split; [|split; [|split; [auto|intros ?; reflexivity]]].
    + constructor; try apply HI. cbn [k_mem k_ep set_mem].
      eapply KM_ext; [apply (HK (tot (set_mem s m') (Lc (rem1 (LRef e) led) env)))| | | |].
      * intros x Hx. unfold tot, Lc. change (refs (set_mem s m') x) with (refs s x). rewrite cnt_rem1.
        destruct litem_dec; try congruence; lia.
      * unfold tot, Lc in *. change (refs (set_mem s m') e) with (refs s e). rewrite cnt_rem1.
        apply cnt_in in Hi. destruct litem_dec; try congruence; lia.
      * reflexivity.
      * intros j x. unfold Lc. rewrite cnt_rem1. destruct litem_dec; try congruence; lia.
      * intros x. unfold Lc. rewrite cnt_rem1. destruct litem_dec; try congruence; lia.
      * intros j x. unfold Lc. rewrite cnt_rem1. destruct litem_dec; try congruence; lia.
    + intros x Hx. apply in_rem1 in Hx. eapply ev_grows; [exact Hg| |apply He; exact Hx]. auto.
Qed.

Lemma safe_gc isr e led :
  stat statics e \/ In (LFresh e) led \/ In (LRef e) led -> safe isr (fwk_gc c e) led.
Proof.
  intros H. constructor. intros s env lo Hlo HI Hb He.
  destruct (KM_hdr c statics PB m0 OK _ _ _ _ _ _ e (ki_mem _ _ HI)) as (H1 & H2 & H3).
  assert (Hstay : forall p, quiet p -> safe isr p led ->
     (KInv s (Lc (fold_left led_step [] led) env) /\ evs s lo (fold_left led_step [] led) /\
      (isr = true -> sgrows s s) /\ eff s [] p s) /\ safe isr p (fold_left led_step [] led)).
  { intros p Hq Hp. cbn [fold_left]. split; [|exact Hp]. split; [exact HI|]. split; [exact He|].
    split; [intros _; apply grows_refl|]. apply effl_eff; [intros ?; reflexivity|exact Hq]. }
  destruct H as [H|[H|H]].
  - destruct (H1 H) as [sig E]. rewrite E. cbn [bind]. split; [discriminate|].
    intros s1 l1 p1 E1. injection E1 as <- <- <-. cbn zeta. apply Hstay; [auto|constructor].
  - destruct H3 as (i & sig & _ & E). { apply cnt_in in H. unfold Lc. lia. }
    rewrite E. cbn [bind]. split; [discriminate|].
    intros s1 l1 p1 E1. injection E1 as <- <- <-. cbn zeta. apply Hstay; [auto|constructor].
  - assert (Hpos : (0 < tot s (Lc led env) e)%nat) by (apply cnt_in in H; unfold tot, Lc; lia).
    destruct (km_T _ _ _ _ _ _ _ _ _ _ (ki_mem _ _ HI) e Hpos) as [Hst|[i Hin]].
    + destruct (H1 Hst) as [sig E]. rewrite E. cbn [bind]. split; [discriminate|].
      intros s1 l1 p1 E1. injection E1 as <- <- <-. cbn zeta. apply Hstay; [auto|constructor].
    + pose proof (Hb e (pb_stat _ _ _ OK _ _ Hin)) as Hle. destruct (H2 i Hin Hpos) as [sig E]. rewrite E. cbn [bind]. split; [discriminate|].
      intros s1 l1 p1 E1. injection E1 as <- <- <-. cbn zeta.
      rewrite u8_small by lia. destruct (N.eqb_spec (N.of_nat (tot s (Lc led env) e)) 0) as [|_]; [lia|].
      apply Hstay; [auto|]. eapply safe_gc2; eauto.
Qed.

(** *** Allocation *)
Lemma ae_find_ok s L esize : KInv s L -> forall k i, (i + k = length PB)%nat ->
  exists j, ae_find c k s i esize = Ok j /\ (i <= j <= length PB)%nat.
Proof.
  intros HI. induction k as [|k IH]; intros i Hk; cbn [ae_find].
  - exists i. split; [reflexivity|lia].
  - rewrite (proj2 (rd_ok _ _ _) (ki_mgr _ _ HI i ltac:(lia))). cbn [bind].
    unfold evtPool_getBlockSize. cbn [rassert orb bind].
    destruct (KI_pool s _ i HI ltac:(lia)) as [p Hp]. rewrite (proj2 (rd_ok _ _ _) Hp). cbn [bind].
    destruct (u8 (mp_bsize p) <? esize).
    + destruct (IH (S i) ltac:(lia)) as (j & E & Hj). exists j. split; [exact E|lia].
    + exists i. split; [reflexivity|lia].
Qed.

Lemma safe_ae isr esize sig led : safe isr (fwk_ae c esize sig) led.
Proof.
  unfold fwk_ae. cbn zeta. set (es := esize mod k_es_mod c).
  constructor. intros s env lo Hlo HI Hb He. rewrite (ki_next _ _ HI), Nat2N.id.
  destruct (ae_find_ok s _ es HI (length PB) 0 ltac:(lia)) as (j & E & Hj). rewrite E. cbn [bind].
  destruct (N.ltb_spec (N.of_nat j) (N.of_nat (length PB))) as [Hlt|Hge].
  2:{ unfold rassert. rewrite Hasrt. cbn [orb negb bind]. split; [|discriminate].
      intros flt Ef. injection Ef as <-. unfold resource_fault. simpl. auto. }
  rewrite rassert_true. cbn [bind].
  rewrite (proj2 (rd_ok _ _ _) (ki_mgr _ _ HI j ltac:(lia))). cbn [bind].
  split; [discriminate|]. intros s1 l1 p1 E1. injection E1 as <- <- <-. cbn zeta. cbn [fold_left].
  split; [split; [exact HI|split; [exact He|split; [intros _; apply grows_refl|intros ?; reflexivity]]]|].
  clear s env lo Hlo HI Hb He E. assert (Hjl : (j < length PB)%nat) by lia. clear Hj Hlt.
  pose proof (pb_len _ _ _ OK) as HL.
  constructor. intros s env lo Hlo HI Hb He.
  destruct (KI_pool s _ j HI Hjl) as [p Hp].
  unfold evtPool_get. cbn [rassert orb bind]. rewrite (proj2 (rd_ok _ _ _) Hp). cbn [bind].
  destruct (KM_alloc c statics PB m0 s _ _ _ _ j p (ki_mem _ _ HI) Hjl Hp)
    as [(B & ow & _ & _ & _ & E)|(p' & b & E & Hb0 & Hin & Hz & Hbs & _ & _ & HK)]; rewrite E; cbn [bind].
  { rewrite wr_lt by (eapply nth_some_lt; eauto). cbn [bind]. unfold rassert. rewrite Hasrt. cbn [N.eqb orb negb bind].
    split; [|discriminate]. intros flt Ef. injection Ef as <-. unfold resource_fault. simpl. auto. }
  rewrite wr_lt by (eapply nth_some_lt; eauto). cbn [bind].
  destruct (N.eqb_spec b 0) as [|_]; [congruence|]. cbn [negb]. rewrite rassert_true. cbn [bind].
  split; [discriminate|]. intros s1 l1 p1 E1. injection E1 as <- <- <-. cbn zeta. cbn [fold_left led_step].
  match goal with |- (KInv ?s1 _ /\ _) /\ _ => assert (Hg : sgrows s s1) by apply grows_refl end.
  split; [split; [|split; [|split; [auto|intros ?; reflexivity]]]|].
  - constructor; try apply HI; cbn [k_mem k_ep set_pools]; [eapply bs_upd; eauto|].
    eapply KM_ext; [apply (HK (fun i a => Lc (LRaw j b :: led) env (LRaw i a)))| | | |].
    + intros i x Hx. unfold Lc. rewrite cnt_cons. destruct litem_dec as [Ed|]; [inversion Ed; subst; tauto|lia].
    + unfold Lc in *. rewrite cnt_cons. destruct litem_dec; [lia|congruence].
    + intros x. unfold tot, Lc. rewrite cnt_cons. destruct litem_dec; [congruence|].
      match goal with |- (refs ?s1 x + _ = _)%nat => change (refs s1 x) with (refs s x) end. lia.
    + reflexivity.
    + intros x. unfold Lc. rewrite cnt_cons. destruct litem_dec; [congruence|lia].
    + intros i x. unfold Lc. rewrite cnt_cons. destruct litem_dec; [congruence|lia].
  - intros x [<-|Hx]; [exact I|]. eapply ev_grows; [exact Hg| |apply He; exact Hx]. auto.
  - clear s env lo Hlo HI Hb He E HK Hz Hp Hg Hbs. constructor. intros s env lo Hlo HI Hb He.
    assert (HW : (0 < Lc (LRaw j b :: led) env (LRaw j b))%nat).
    { unfold Lc. rewrite cnt_cons. destruct litem_dec; [lia|congruence]. }
    destruct (KM_blk _ _ _ _ _ _ _ _ _ _ j b (ki_mem _ _ HI) Hin) as (p0 & ow & B & HB & Ha & Hp0 & Hv & Hbk).
    destruct (iv_nz _ _ _ _ _ _ Hv b Ha) as (_ & Hd & _).
    destruct (k_mem s b) as [v|] eqn:Ev; [|congruence].
    rewrite (hdr_wr_ok _ _ v) by assumption. cbn [bind].
    split; [discriminate|]. intros s1 l1 p1 E1. injection E1 as <- <- <-. cbn zeta. cbn [fold_left led_step].
    match goal with |- (KInv ?s1 _ /\ _) /\ _ => assert (Hg : sgrows s s1) by apply grows_refl end.
    assert (Hz : (tot s (Lc (LRaw j b :: led) env) b = 0 /\ Lc (LRaw j b :: led) env (LRaw j b) = 1 /\
        Lc (LRaw j b :: led) env (LFresh b) = 0 /\ Lc (LRaw j b :: led) env (LDead j b) = 0)%nat).
    { unfold blk in Hbk. destruct Hbk as [?|(_ & [?|[(? & _)|[?|(? & _)]]])]; lia. }
    cbn [rem1]. destruct (litem_dec (LRaw j b) (LRaw j b)) as [_|]; [|congruence].
    split; [split; [|split; [|split; [auto|intros ?; reflexivity]]]|constructor].
    + constructor; try apply HI. cbn [k_mem k_ep set_mem].
      eapply KM_write; [exact OK|apply HI|exact Hin|cbv beta; lia| | |].
      * intros x Hx. unfold tot, Lc. match goal with |- (refs ?s1 x + _ = _)%nat /\ _ => change (refs s1 x) with (refs s x) end.
        rewrite !cnt_cons. repeat destruct litem_dec; try congruence; split; lia.
      * intros i x Hx. unfold Lc. rewrite !cnt_cons. split; repeat destruct litem_dec; try congruence; try lia.
        match goal with E : _ = _ |- _ => inversion E; subst; exfalso; tauto end.
      * right; left. unfold tot, Lc in *.
        match goal with |- ((refs ?s1 b + _ = _)%nat /\ _) /\ _ => change (refs s1 b) with (refs s b) end.
        rewrite !cnt_cons in *. repeat destruct litem_dec in *; try congruence.
        split; [lia|]. exists (sig mod k_sig_mod c). f_equal. apply u8_small. lia.
    + intros x [<-|Hx]; [exact I|]. eapply ev_grows; [exact Hg| |apply He; now right]. auto.
Qed.

(** *** Deferral *)
Lemma safe_defer isr d e led : holds led e -> (d < nd)%nat -> safe isr (sma_defer c d e) led.
Proof.
  intros H Hd. constructor. intros s env lo Hlo HI Hb He.
  destruct (inc_led s env lo led e Hlo HI He H) as (m' & E & Hfr & HK).
  pose proof (holds_fresh _ _ _ _ _ Hlo HI He H) as HF0. pose proof (ki_q _ _ HI) as HQ.
  rewrite E. cbn [bind]. cbn [k_dq k_rg set_mem].
  destruct (nth_error (k_dq s) d) as [q|] eqn:Eq.
  2:{ apply nth_error_None in Eq. rewrite (kq_nd _ _ _ _ _ _ _ _ HQ) in Eq. lia. }
  rewrite (proj2 (rd_ok _ _ _) Eq). cbn [bind].
  destruct (KQ_defer c prios nd Hmax Hasrt _ _ _ _ _ d q e HQ Eq) as [(_ & Ep)|(_ & q' & g' & Ep & Hv & _ & HQ')];
    rewrite Ep; cbn [bind].
  { split; [|discriminate]. intros flt Ef. injection Ef as <-. apply (rf_post false). }
  rewrite wr_lt by (eapply nth_some_lt; eauto). cbn [bind].
  split; [discriminate|]. intros s1 l1 p1 E1. injection E1 as <- <- <-. cbn zeta. cbn [fold_left].
  set (dq' := upd (k_dq s) d q').
  assert (Hg : sgrows s (set_rg (set_dq (set_mem s m') dq') g')).
  { unfold sgrows. cbn [k_ao k_dq k_sp set_rg set_dq set_mem]. eapply grows_dq; [exact Eq|].
    rewrite Hv. intros x Hx. apply in_app_iff. auto. }
  assert (Hrefs : forall x, refs (set_rg (set_dq (set_mem s m') dq') g') x =
                  (refs s x + if N.eq_dec e x then 1 else 0)%nat).
  { intros x. pose proof (refs_dq dq' s d q q' x Eq eq_refl) as H1.
    rewrite Hv, count_occ_app in H1. cbn [count_occ] in H1.
    change (refs (set_rg (set_dq (set_mem s m') dq') g') x) with (refs (set_dq s dq') x).
    destruct (N.eq_dec e x); lia. }
  split; [|constructor]. split; [|split; [|split; [auto|intros ?; reflexivity]]].
  - constructor; try apply HI; cbn [k_mem k_ep k_ao k_dq k_sp k_rg k_ch set_rg set_dq set_mem]; [|exact HQ'].
    eapply KM_ext;
      [apply (HK (tot (set_rg (set_dq (set_mem s m') dq') g') (Lc (led_step led (KDefer d e)) env))
                 (fun a => Lc (led_step led (KDefer d e)) env (LFresh a)))| | | |]; [| | |reflexivity| |reflexivity|].
    + intros x Hx. unfold tot. rewrite Hrefs. unfold Lc. cbn [led_step]. rewrite !cnt_cons, !cnt_rem1.
      destruct (N.eq_dec e x); [congruence|]. repeat destruct litem_dec; try congruence; lia.
    + unfold Lc in *. cbn [led_step]. rewrite cnt_cons. destruct litem_dec; [congruence|]. lia.
    + unfold tot. rewrite Hrefs. unfold Lc. cbn [led_step]. rewrite cnt_cons, cnt_rem1.
      destruct (N.eq_dec e e); [|congruence]. repeat destruct litem_dec; try congruence; lia.
    + intros i x. unfold Lc. cbn [led_step]. rewrite cnt_cons, cnt_rem1. repeat destruct litem_dec; try congruence; lia.
    + intros i x. unfold Lc. cbn [led_step]. rewrite cnt_cons, cnt_rem1. repeat destruct litem_dec; try congruence; lia.
  - intros x [<-|Hx].
    + cbn [ev]. left. apply refs_in. rewrite Hrefs. destruct (N.eq_dec e e); [lia|congruence].
    + apply in_rem1 in Hx. eapply ev_grows; [exact Hg| |apply He; exact Hx]. auto.
Qed.

(** The last section of rkh_sma_recall. *)
Lemma safe_recall3 e led :
  In (LRef e) led -> In (LLive e) led ->
  safe false (Atom (fun s =>
          do (sig, nref, pool) <- hdr_rd (k_mem s) e;
          if nref =? 0 then Ok (s, [], Ret e) else
          do! rassert (q_asrt (k_qc c)) 273 (1 <? nref);
          do m <- hdr_wr (k_mem s) e sig (nref - 1) pool;
          Ok (set_mem s m, [KDec e], Ret e))) led.
Proof.
  intros Hi Hl. constructor. intros s env lo Hlo HI Hb He.
  assert (Hpos : (2 <= tot s (Lc led env) e)%nat).
  { apply cnt_in in Hi. unfold tot, Lc. specialize (Hlo (LRef e)). destruct (He _ Hl) as [Hq|Hq]; [apply refs_in in Hq|]; lia. }
  destruct (KM_hdr c statics PB m0 OK _ _ _ _ _ _ e (ki_mem _ _ HI)) as (H1 & H2 & H3).
  destruct (km_T _ _ _ _ _ _ _ _ _ _ (ki_mem _ _ HI) e ltac:(lia)) as [Hst|[i Hin]].
  - destruct (H1 Hst) as [sig E]. rewrite E. cbn [bind]. change (0 =? 0) with true. cbv iota.
    split; [discriminate|]. intros s1 l1 p1 E1. injection E1 as <- <- <-. cbn zeta. cbn [fold_left].
    split; [|constructor]. split; [exact HI|]. split; [exact He|]. split; [discriminate|intros ?; reflexivity].
  - pose proof (Hb e (pb_stat _ _ _ OK _ _ Hin)) as Hle.
    destruct (KM_dec c statics PB m0 OK _ _ _ _ _ _ e i (ki_mem _ _ HI) Hin) as (sig & m' & Eh & Ew & Hfr & HK).
    { cbv beta. lia. }
    rewrite Eh. cbn [bind]. replace (N.of_nat (tot s (Lc led env) e) =? 0) with false by lia.
    replace (1 <? N.of_nat (tot s (Lc led env) e)) with true by lia.
    cbv iota. rewrite rassert_true. cbn [bind]. rewrite Ew. cbn [bind].
    split; [discriminate|]. intros s1 l1 p1 E2. injection E2 as <- <- <-. cbn zeta. cbn [fold_left led_step].
    assert (Hg : sgrows s (set_mem s m')) by apply grows_refl.
    split; [|constructor]. split; [|split; [|split; [auto|intros ?; reflexivity]]].
    + constructor; try apply HI. cbn [k_mem k_ep set_mem].
      eapply KM_ext; [apply (HK (tot (set_mem s m') (Lc (rem1 (LRef e) led) env)))| | | |].
      * intros x Hx. unfold tot, Lc. change (refs (set_mem s m') x) with (refs s x). rewrite cnt_rem1.
        destruct litem_dec; try congruence; lia.
      * unfold tot, Lc in *. change (refs (set_mem s m') e) with (refs s e). rewrite cnt_rem1.
        apply cnt_in in Hi. destruct litem_dec; try congruence; lia.
      * reflexivity.
      * intros j x. unfold Lc. rewrite cnt_rem1. destruct litem_dec; try congruence; lia.
      * intros x. unfold Lc. rewrite cnt_rem1. destruct litem_dec; try congruence; lia.
      * intros j x. unfold Lc. rewrite cnt_rem1. destruct litem_dec; try congruence; lia.
    + intros x Hx. apply in_rem1 in Hx. eapply ev_grows; [exact Hg| |apply He; exact Hx]. auto.
Qed.

(** Taking an event out of a queue turns its place into a held reference. *)
Lemma KM_take (s s' : kst) env led e l' :
  KInv s (Lc led env) -> k_mem s' = k_mem s -> k_ep s' = k_ep s ->
  (forall x, refs s' x + (if N.eq_dec e x then 1 else 0) = refs s x)%nat ->
  (forall y, is_right y = true -> cnt l' y = cnt (LRef e :: led) y) ->
  KM c statics PB m0 (k_mem s') (k_ep s') (tot s' (Lc l' env)) (fun i a => Lc l' env (LRaw i a))
     (fun a => Lc l' env (LFresh a)) (fun i a => Lc l' env (LDead i a)).
Proof.
  intros HI Em Ee Hr Hl. rewrite Em, Ee. eapply KM_ext; [apply HI| | | |].
  - intros a. unfold tot, Lc. rewrite Hl by reflexivity. rewrite cnt_cons. specialize (Hr a).
    destruct (N.eq_dec e a); destruct litem_dec; try congruence; lia.
  - intros i a. unfold Lc. rewrite Hl by reflexivity. rewrite cnt_cons. destruct litem_dec; [congruence|lia].
  - intros a. unfold Lc. rewrite Hl by reflexivity. rewrite cnt_cons. destruct litem_dec; [congruence|lia].
  - intros i a. unfold Lc. rewrite Hl by reflexivity. rewrite cnt_cons. destruct litem_dec; [congruence|lia].
Qed.

Lemma safe_recall o d led : In (LReg o) led -> (d < nd)%nat -> safe false (sma_recall c o d) led.
Proof.
  intros Hr Hd. constructor. intros s env lo Hlo HI Hb He. pose proof (ki_q _ _ HI) as HQ.
  destruct (nth_error (k_dq s) d) as [q|] eqn:Eq.
  2:{ apply nth_error_None in Eq. rewrite (kq_nd _ _ _ _ _ _ _ _ HQ) in Eq. lia. }
  rewrite (proj2 (rd_ok _ _ _) Eq). cbn [bind].
  destruct (KQ_undefer c prios nd Hmax _ _ _ _ _ d q HQ Eq)
    as [(Hv & q' & E & Hv' & _ & HQ')|(e & l & q' & Hv & E & Hv' & _ & HQ')]; rewrite E; cbn [bind];
    rewrite wr_lt by (eapply nth_some_lt; eauto); cbn [bind];
    (split; [discriminate|]); intros s1 l1 p1 E1; injection E1 as <- <- <-; cbn zeta; cbn [fold_left];
    set (s1 := set_rg (set_dq s (upd (k_dq s) d q')) (k_rg s)).
  - split; [|constructor].
    assert (Hg : sgrows s s1).
    { unfold sgrows, s1. cbn [k_ao k_dq k_sp set_rg set_dq]. eapply grows_dq; [exact Eq|]. rewrite Hv. intros x []. }
    split; [|split; [|split; [auto|intros ?; reflexivity]]].
    + constructor; try apply HI; [|exact HQ']. eapply KM_ext; [apply HI| | | |]; try reflexivity.
      intros a. unfold tot. f_equal. pose proof (refs_dq _ s d q q' a Eq eq_refl) as H1. rewrite Hv, Hv' in H1.
      change (refs s1 a) with (refs (set_dq s (upd (k_dq s) d q')) a). lia.
    + intros x Hx. eapply ev_grows; [exact Hg| |apply He; exact Hx]. auto.
  - assert (Hrefs : forall x, (refs s1 x + (if N.eq_dec e x then 1 else 0) = refs s x)%nat).
    { intros x. pose proof (refs_dq _ s d q q' x Eq eq_refl) as H1. rewrite Hv, Hv' in H1. cbn [count_occ] in H1.
      change (refs s1 x) with (refs (set_dq s (upd (k_dq s) d q')) x). destruct (N.eq_dec e x); lia. }
    cbn [led_step]. set (led1 := LRef e :: filter _ led).
    split.
    + split; [|split; [|split; [discriminate|intros ?; reflexivity]]].
      * constructor; try apply HI; [|exact HQ'].
        eapply KM_take; [exact HI|reflexivity|reflexivity|exact Hrefs|].
        intros y Hy. unfold led1. rewrite !cnt_cons, cnt_keep; [reflexivity|]. destruct y; try reflexivity; discriminate.
      * intros x [<-|Hx]; [exact I|]. apply filter_In in Hx. destruct Hx as [Hx Hne]. specialize (He x Hx).
        destruct x; try exact I; try discriminate; exact He.
    + assert (H1 : In (LReg o) led1). { right. apply filter_In. auto. }
      assert (H2 : In (LRef e) led1) by now left. clearbody led1. clear - H1 H2 OK Hmax Hasrt.
      constructor. intros s env lo Hlo HI Hb He. destruct (He _ H1) as (a & Ho & Hreg).
      destruct (post_led true s env lo led1 o a e Hlo HI He ltac:(right; right; left; exact H2) Ho Hreg)
        as [E|(s' & q' & E & HI' & He' & Hg & _ & _ & _ & _ & _ & Hef & _)]; rewrite E; cbn [bind].
      * split; [|discriminate]. intros flt Ef. injection Ef as <-. apply (rf_post true).
      * split; [discriminate|]. intros s1 l1 p1 E1. injection E1 as <- <- <-. cbn zeta. cbn [fold_left].
        split; [auto using effl_eff|]. cbn [led_step]. apply safe_recall3; [|now left].
        right. apply in_rem1_ne; [congruence|exact H2].
Qed.

(** *** Scheduler *)
Lemma safe_sched : safe false (sched_once c) [].
Proof.
  constructor. intros s env lo Hlo HI Hb He. pose proof (ki_q _ _ HI) as HQ.
  destruct (rg_isReady (k_rg s)) eqn:Er.
  2:{ split; [discriminate|]. intros s1 l1 p1 E1. injection E1 as <- <- <-. cbn zeta. cbn [fold_left].
      split; [split; [exact HI|split; [exact He|split; [discriminate|intros ?; reflexivity]]]|].
      constructor; [intros x []|auto|constructor]. }
  destruct (KQ_highest c prios nd Hmax Hasrt _ _ _ _ _ HQ Er) as (p & o & a & E1 & E2 & Ho & Hp & Hreg & Hv & _).
  rewrite E1. cbn [bind]. rewrite E2. cbn [bind].
  split; [discriminate|]. intros s1 l1 p1 E3. injection E3 as <- <- <-. cbn zeta. cbn [fold_left led_step].
  split.
  { split; [|split; [|split; [discriminate|intros ?; reflexivity]]].
    - eapply KInv_ext; [|exact HI]. intros x Hx. unfold Lc. rewrite cnt_cons.
      destruct litem_dec; [subst x; discriminate|reflexivity].
    - intros x [<-|[]]. exists a. auto. }
  clear s env lo Hlo HI Hb He HQ Er p a E1 E2 Ho Hp Hreg Hv.
  constructor. intros s env lo Hlo HI Hb He. pose proof (ki_q _ _ HI) as HQ.
  destruct (He (LSel o) ltac:(now left)) as (a & Ho & Hreg & Hne).
  destruct (q_view (ao_q a)) as [|e l] eqn:Hv; [congruence|].
  rewrite (proj2 (rd_ok _ _ _) Ho). cbn [bind].
  destruct (KQ_get c prios nd Hmax Hasrt _ _ _ _ _ o a e l HQ Ho Hreg Hv) as (q' & g' & E & Hv' & _ & HQ').
  rewrite E. cbn [bind]. rewrite wr_lt by (eapply nth_some_lt; eauto). cbn [bind]. rewrite rassert_true. cbn [bind].
  split; [discriminate|]. intros s1 l1 p1 E3. injection E3 as <- <- <-. cbn zeta. cbn [fold_left led_step filter is_right].
  split.
  { split; [|split; [|split; [discriminate|]]].
    - constructor; try apply HI; [|exact HQ'].
      eapply (KM_take _ _ _ _ e); [exact HI|reflexivity|reflexivity| |].
      + intros x. pose proof (refs_ao _ s o a q' x Ho eq_refl) as H1. rewrite Hv, Hv' in H1. cbn [count_occ] in H1.
        match goal with |- (refs ?s1 x + _ = _)%nat => change (refs s1 x) with
           (refs (set_ao s (upd (k_ao s) o (mkAo (ao_prio a) q'))) x) end.
        destruct (N.eq_dec e x); lia.
      + intros y Hy. rewrite !cnt_cons. destruct (litem_dec (LSel o) y); [subst y; discriminate|reflexivity].
    - intros x [<-|[]]. exact I.
    - intros o'. cbn [map fold_left log_step user_of]. unfold ao_view. cbn [k_ao set_rg set_ao].
      destruct (Nat.eqb_spec o' o) as [->|Hn].
      + rewrite nth_upd_eq by (eapply nth_some_lt; eauto). rewrite Ho, Hv. cbn [ao_q].
        rewrite N.eqb_refl. now rewrite Hv'.
      + rewrite nth_upd_ne by auto. reflexivity. }
  constructor; [intros x [<-|[]]; reflexivity|apply quiet_atom|]. apply safe_gc. right; right. now left.
Qed.

(** *** Registration *)
Lemma safe_activate o qs n : (0 < n <= length qs)%nat ->
  safe false (sma_activate c o qs n) [LAct o].
Proof.
  intros Hn. constructor. intros s env lo Hlo HI Hb He. pose proof (ki_q _ _ HI) as HQ.
  destruct (He (LAct o) ltac:(now left)) as (a & Ho & Hlt & Hs).
  replace (negb (Nat.eqb n 0)) with true by (symmetry; apply negb_true_iff, Nat.eqb_neq; lia).
  rewrite rassert_true. cbn [bind]. rewrite (proj2 (rd_ok _ _ _) Ho). cbn [bind].
  rewrite wr_lt by (eapply nth_some_lt; eauto). cbn [bind].
  split; [discriminate|]. intros s1 l1 p1 E1. injection E1 as <- <- <-. cbn zeta. cbn [fold_left led_step].
  set (q' := queue_init qs n (Some (ao_prio a))). set (ao' := upd (k_ao s) o (mkAo (ao_prio a) q')).
  assert (Hnr : ~ reg (k_sp s) a o) by (unfold reg; rewrite Hs; discriminate).
  assert (Hv0 : q_view (ao_q a) = []).
  { apply q_view_nil. eapply (kq_off _ _ _ _ _ _ _ _ HQ); eauto. }
  assert (Hq : q_rel qs q' (map Some [])) by (apply queue_init_rel; lia).
  pose proof (q_view_rel _ _ _ Hq) as Hv1.
  split; [split; [|split; [|split; [discriminate|]]]|].
  - constructor; try apply HI; [|cbn [k_ao k_dq k_sp k_rg k_ch set_ao]; eapply KQ_init; eauto].
    eapply KM_ext; [apply HI| | | |]; try reflexivity.
    intros x. unfold tot. f_equal. pose proof (refs_ao _ s o a q' x Ho eq_refl) as H1. rewrite Hv0, Hv1 in H1. 
    fold ao' in H1. lia.
  - assert (Ho' : nth_error (k_ao (set_ao s ao')) o = Some (mkAo (ao_prio a) q')).
    { cbn [k_ao set_ao]. apply nth_upd_eq. eapply nth_some_lt; eauto. }
    intros x [<-|[<-|[]]].
    + eexists. split; [exact Ho'|]. split; [eapply q_good_rel; exact Hq|]. split; [exact Hv1|exact Hnr].
    + eexists. split; [exact Ho'|]. auto.
  - intros o'. cbn [map fold_left log_step user_of]. f_equal. unfold ao_view. cbn [k_ao set_ao].
    destruct (Nat.eq_dec o o') as [<-|Hne].
    + unfold ao'. rewrite nth_upd_eq by (eapply nth_some_lt; eauto). rewrite Ho. cbn [ao_q]. now rewrite Hv0, Hv1.
    + unfold ao'. now rewrite nth_upd_ne by auto.
  - clear - Hmax Hasrt. cbn [pseq]. constructor. intros s env lo Hlo HI Hb He. pose proof (ki_q _ _ HI) as HQ.
    destruct (He (LAct o) ltac:(right; now left)) as (a & Ho & Hlt & Hs).
    rewrite (proj2 (rd_ok _ _ _) Ho). cbn [bind].
    replace (ao_prio a <=? max_sma (q_rg (k_qc c)) - 1) with true by lia.
    rewrite (proj2 (rd_ok _ _ _) Hs). cbn [bind]. rewrite rassert_true. cbn [bind].
    split; [discriminate|]. intros s1 l1 p1 E1. injection E1 as <- <- <-. cbn zeta. cbn [fold_left].
    split; [split; [exact HI|split; [exact He|split; [discriminate|intros ?; reflexivity]]]|].
    assert (Hp : nth_error prios o = Some (ao_prio a)).
    { rewrite <- (kq_prios _ _ _ _ _ _ _ _ HQ), nth_error_map, Ho. reflexivity. }
    remember (ao_prio a) as prio eqn:Ea. clear s env lo Hlo HI Hb He HQ a Ho Hs Hlt Ea. 
    cbn [pseq]. constructor. intros s env lo Hlo HI Hb He. pose proof (ki_q _ _ HI) as HQ.
    destruct (He (LAct o) ltac:(right; now left)) as (a & Ho & Hlt & Hs).
    destruct (He (LActd o) ltac:(now left)) as (a' & Ho' & Hg & Hv & _).
    assert (a' = a) by congruence. subst a'.
    assert (Ea : ao_prio a = prio).
    { rewrite <- (kq_prios _ _ _ _ _ _ _ _ HQ), nth_error_map, Ho in Hp. now injection Hp. }
    subst prio. rewrite wr_lt by (eapply nth_some_lt; eauto). cbn [bind].
    split; [discriminate|]. intros s1 l1 p1 E1. injection E1 as <- <- <-. cbn zeta.
    cbn [fold_left led_step filter is_right pseq].
    split; [split; [|split; [intros x []|split; [discriminate|intros ?; reflexivity]]]|].
    + constructor; try apply HI. cbn [k_ao k_dq k_sp k_rg k_ch set_sp]. eapply KQ_register; eauto.
    + constructor; [intros x []|auto|constructor].
Qed.

Lemma reg_registered s o a : nth_error (k_ao s) o = Some a -> (registered s o = true <-> reg (k_sp s) a o).
Proof.
  intros Ho. unfold registered, reg. rewrite Ho.
  destruct (nth_error (k_sp s) (N.to_nat (ao_prio a))) as [[o'|]|]; [rewrite Nat.eqb_eq; split; congruence|..]; split; discriminate.
Qed.
Lemma not_stranded s o : stranded s = false -> registered s o = false -> ao_view s o = [].
Proof.
  intros H Hr. unfold stranded in H. destruct (Nat.lt_ge_cases o (length (k_ao s))) as [Hl|Hl].
  - destruct (ao_view s o) eqn:Ev; [reflexivity|exfalso].
    rewrite (proj2 (existsb_exists _ _)) in H; [discriminate|]. exists o. split; [apply in_seq; lia|]. now rewrite Hr, Ev.
  - unfold ao_view. apply nth_error_None in Hl. now rewrite Hl.
Qed.
Lemma KQ_stranded s : KQ c prios nd (k_ao s) (k_dq s) (k_sp s) (k_rg s) (k_ch s) -> stranded s = false.
Proof.
  intros HQ. destruct (stranded s) eqn:E; [|reflexivity]. apply existsb_exists in E. destruct E as (o & Ho & E).
  apply andb_true_iff in E. destruct E as [Er Ev]. apply negb_true_iff in Er. unfold ao_view in Ev.
  destruct (nth_error (k_ao s) o) as [a|] eqn:Ea; [|discriminate].
  rewrite (proj1 (q_view_nil (ao_q a))) in Ev; [discriminate|]. eapply (kq_off _ _ _ _ _ _ _ _ HQ); [exact Ea|].
  intros Hr. apply (reg_registered s o a Ea) in Hr. congruence.
Qed.
Lemma KInv_stranded s L : KInv s L -> stranded s = false.
Proof. intros HI. apply KQ_stranded. apply HI. Qed.
(** Programs with one more kind of section: right provided that it strands no events. *)
Inductive safeT (isr : bool) : prog -> list litem -> Prop :=
| sT_ret v led : safeT isr (Ret v) led
| sT_user u p led : (forall x, In x led -> is_right x = true) -> quiet p -> safeT isr p led -> safeT isr (User u p) led
| sT_atom f led :
    (forall s env lo, (forall x, lo x <= env x)%nat -> KInv s (Lc led env) -> bnd s (Lc led env) -> evs s lo led ->
       (forall flt, f s = Fault flt -> resource_fault flt) /\
       forall s' labs p', f s = Ok (s', labs, p') -> stranded s' = false ->
         let led' := fold_left led_step labs led in
         (KInv s' (Lc led' env) /\ evs s' lo led' /\ (isr = true -> sgrows s s') /\ eff s labs p' s') /\
         safeT isr p' led') ->
    safeT isr (Atom f) led.
Lemma safe_T isr : forall p led, safe isr p led -> safeT isr p led.
Proof.
  fix IH 3. intros p led H. destruct H as [v led|u p led Hr Hu H|f led H]; [constructor|constructor; auto|].
  constructor. intros s env lo Hlo HI Hb He. specialize (H s env lo Hlo HI Hb He). destruct H as [Hf Hs]. split; [exact Hf|].
  intros s' labs p' E _. specialize (Hs s' labs p' E). cbn zeta in *. destruct Hs as [Ha Hs]. split; [exact Ha|apply IH; exact Hs].
Qed.
Lemma safe_terminate o : safeT false (sma_terminate c o) [LReg o].
Proof.
  constructor. intros s env lo Hlo HI Hb He. pose proof (ki_q _ _ HI) as HQ.
  destruct (He (LReg o) ltac:(now left)) as (a & Ho & Hr).
  assert (Hlt : ao_prio a < max_sma (q_rg (k_qc c))) by (eapply reg_lt; eauto).
  rewrite (proj2 (rd_ok _ _ _) Ho). cbn [bind].
  replace (ao_prio a <=? max_sma (q_rg (k_qc c))) with true by lia.
  rewrite (proj2 (rd_ok _ _ _) Hr). cbn [bind]. rewrite Nat.eqb_refl, rassert_true. cbn [bind].
  split; [discriminate|]. intros s1 l1 p1 E1 _. injection E1 as <- <- <-. cbn zeta. cbn [fold_left].
  split; [split; [exact HI|split; [exact He|split; [discriminate|intros ?; reflexivity]]]|].
  assert (Hp : nth_error prios o = Some (ao_prio a)).
  { rewrite <- (kq_prios _ _ _ _ _ _ _ _ HQ), nth_error_map, Ho. reflexivity. }
  remember (ao_prio a) as prio eqn:Ea. clear s env lo Hlo HI Hb He HQ a Ho Hr Hlt Ea.
  constructor. intros s env lo Hlo HI Hb He. pose proof (ki_q _ _ HI) as HQ.
  destruct (He (LReg o) ltac:(now left)) as (a & Ho & Hr).
  assert (Ea : ao_prio a = prio).
  { rewrite <- (kq_prios _ _ _ _ _ _ _ _ HQ), nth_error_map, Ho in Hp. now injection Hp. }
  subst prio. rewrite wr_lt by (eapply nth_some_lt; exact Hr). cbn [bind].
  split; [discriminate|]. intros s1 l1 p1 E1 Hns. injection E1 as <- <- <-. cbn zeta.
  cbn [fold_left led_step filter is_right].
  split; [split; [|split; [intros x []|split; [discriminate|intros ?; reflexivity]]]|constructor].
  constructor; try apply HI. cbn [k_ao k_dq k_sp k_rg k_ch set_sp]. eapply KQ_unregister; [exact Hmax|exact Hasrt|exact HQ|exact Ho|exact Hr|].
  apply (not_stranded _ o) in Hns.
  - unfold ao_view in Hns. cbn [k_ao set_sp] in Hns. rewrite Ho in Hns.
    pose proof (f_equal (@length N) Hns) as Hln. unfold q_view in Hln. rewrite map_length, seq_length in Hln. exact Hln.
  - destruct (registered _ o) eqn:E; [|reflexivity]. apply (reg_registered _ o a) in E; [|exact Ho].
    unfold reg in E. cbn [k_sp set_sp] in E. rewrite nth_upd_eq in E by (eapply nth_some_lt; exact Hr). discriminate.
Qed.

(** *** Subscriptions *)
Lemma KInv_ch s L ch' : KInv s L -> KQ c prios nd (k_ao s) (k_dq s) (k_sp s) (k_rg s) ch' ->
  KInv (set_ch s ch') L.
Proof. intros HI H. constructor; try apply HI. exact H. Qed.

Lemma safe_sub isr (b : bool) ch o p led :
  ch < N.of_nat (k_maxch c) -> ch < 256 -> nth_error prios o = Some p -> p < max_sma (q_rg (k_qc c)) ->
  safe isr (if b then ps_subscribe c ch o else ps_unsubscribe c ch o) led.
Proof.
  intros Hc1 Hc2 Hp Hlt.
  assert (Hch : forall s L, KInv s L -> exists a g g', nth_error (k_ao s) o = Some a /\
     ao_prio a = p /\ nth_error (k_ch s) (N.to_nat ch) = Some g /\
     (if b then rg_setReady (q_rg (k_qc c)) g p else rg_setUnready (q_rg (k_qc c)) g p) = Ok g' /\
     KInv (set_ch s (upd (k_ch s) (N.to_nat ch) g')) L).
  { intros s L HI. pose proof (ki_q _ _ HI) as HQ.
    pose proof Hp as Hp'. rewrite <- (kq_prios _ _ _ _ _ _ _ _ HQ), nth_error_map in Hp'.
    destruct (nth_error (k_ao s) o) as [a|] eqn:Ho; [|discriminate]. injection Hp' as Hp'.
    destruct (nth_error (k_ch s) (N.to_nat ch)) as [g|] eqn:Eg.
    2:{ apply nth_error_None in Eg. rewrite (kq_chlen _ _ _ _ _ _ _ _ HQ) in Eg. lia. }
    destruct (kq_ch _ _ _ _ _ _ _ _ HQ _ _ Eg) as [CS HR].
    destruct b.
    - destruct (rg_setReady_rel _ _ _ p Hmax HR Hlt) as (g' & E & HR'). exists a, g, g'.
      do 4 (split; [auto|]). apply KInv_ch; [exact HI|]. eapply KQ_ch; eauto.
    - destruct (rg_setUnready_rel _ _ _ p Hmax HR Hlt) as (g' & E & HR'). exists a, g, g'.
      do 4 (split; [auto|]). apply KInv_ch; [exact HI|]. eapply KQ_ch; eauto. }
  assert (Hlen : forall s L g, KInv s L -> wr (k_ch s) (N.to_nat ch) g = Ok (upd (k_ch s) (N.to_nat ch) g)).
  { intros s L g HI. apply wr_lt. rewrite (kq_chlen _ _ _ _ _ _ _ _ (ki_q _ _ HI)). lia. }
  destruct b; constructor; intros s env lo Hlo HI Hb He; destruct (Hch s _ HI) as (a & g & g' & Ho & Ea & Eg & E & HI');
    rewrite !u8_small by lia; replace (ch <? N.of_nat (k_maxch c)) with true by lia;
    rewrite rassert_true; cbn [bind]; rewrite (proj2 (rd_ok _ _ _) Ho); cbn [bind];
    rewrite (proj2 (rd_ok _ _ _) Eg); cbn [bind]; rewrite Ea, E; cbn [bind];
    rewrite (Hlen s _ g' HI); cbn [bind]; (split; [discriminate|]);
    intros s1 l1 p1 E1; injection E1 as <- <- <-; cbn zeta; cbn [fold_left];
    (assert (Hg : sgrows s (set_ch s (upd (k_ch s) (N.to_nat ch) g'))) by apply grows_refl);
    (split; [|constructor]); (split; [exact HI'|]); (split; [|split; [auto|intros ?; reflexivity]]);
    intros x Hx; (eapply ev_grows; [exact Hg| |apply He; exact Hx]); auto.
Qed.

Lemma unsub_all_ok p l : p < max_sma (q_rg (k_qc c)) ->
  (forall i g, nth_error l i = Some g -> exists CS, rg_rel (q_rg (k_qc c)) g CS) ->
  exists l', unsub_all c l p = Ok l' /\ length l' = length l /\
    forall i g, nth_error l' i = Some g -> exists CS, rg_rel (q_rg (k_qc c)) g CS.
Proof.
  intros Hp. induction l as [|g t IH]; intros H; cbn [unsub_all].
  - exists []. split; [reflexivity|]. split; [reflexivity|]. intros i x Hx. destruct i; discriminate.
  - destruct (H 0%nat g eq_refl) as [CS HR].
    destruct (rg_setUnready_rel _ _ _ p Hmax HR Hp) as (g' & E & HR'). rewrite E. cbn [bind].
    destruct IH as (t' & Et & Hl & Ht). { intros i x Hx. exact (H (S i) x Hx). }
    rewrite Et. cbn [bind]. exists (g' :: t'). split; [reflexivity|]. split; [simpl; lia|].
    intros [|i] x Hx; [injection Hx as <-; eauto|eauto].
Qed.

Lemma safe_unsubAll isr o p led :
  nth_error prios o = Some p -> p < max_sma (q_rg (k_qc c)) -> safe isr (ps_unsubscribeAll c o) led.
Proof.
  intros Hp Hlt. constructor. intros s env lo Hlo HI Hb He. pose proof (ki_q _ _ HI) as HQ.
  pose proof Hp as Hp'. rewrite <- (kq_prios _ _ _ _ _ _ _ _ HQ), nth_error_map in Hp'.
  destruct (nth_error (k_ao s) o) as [a|] eqn:Ho; [|discriminate]. injection Hp' as Hp'.
  rewrite (proj2 (rd_ok _ _ _) Ho). cbn [bind]. rewrite Hp'.
  destruct (unsub_all_ok p (k_ch s) Hlt (kq_ch _ _ _ _ _ _ _ _ HQ)) as (l' & E & Hl & HR). rewrite E. cbn [bind].
  split; [discriminate|]. intros s1 l1 p1 E1. injection E1 as <- <- <-. cbn zeta. cbn [fold_left].
  assert (Hg : sgrows s (set_ch s l')) by apply grows_refl.
  split; [|constructor]. split; [|split; [|split; [auto|intros ?; reflexivity]]].
  - apply KInv_ch; [exact HI|]. destruct HQ. constructor; auto. congruence.
  - intros x Hx. eapply ev_grows; [exact Hg| |apply He; exact Hx]. auto.
Qed.

(** *** Publishing *)
Lemma publish_fold e sender env lo led0 : (forall x, lo x <= env x)%nat -> forall ps s labs,
  let led := fold_left led_step labs led0 in
  (forall p, In p ps -> p < max_sma (q_rg (k_qc c))) ->
  KInv s (Lc led env) -> evs s lo led -> In (LRef e) led ->
  (exists f, cb_fold (ps_cb c e sender) ps (s, labs) = Fault f /\ resource_fault f) \/
  exists s' labs', cb_fold (ps_cb c e sender) ps (s, labs) = Ok (s', labs ++ labs') /\
    let led' := fold_left led_step (labs ++ labs') led0 in
    KInv s' (Lc led' env) /\ evs s' lo led' /\ In (LRef e) led' /\ sgrows s s' /\ effl s labs' s' /\
    k_ch s' = k_ch s.
Proof.
  intros Hlo. induction ps as [|p ps IH]; intros s labs led Hps HI He Hi; cbn [cb_fold].
  - right. exists s, []. rewrite app_nil_r. split; [reflexivity|]. cbn zeta.
    split; [exact HI|]. split; [exact He|]. split; [exact Hi|]. split; [apply grows_refl|].
    split; [intros ?; reflexivity|reflexivity].
  - pose proof (ki_q _ _ HI) as HQ. pose proof (Hps p ltac:(now left)) as Hp.
    unfold ps_cb at 1 3. rewrite u8_small by lia.
    destruct (nth_error (k_sp s) (N.to_nat p)) as [x|] eqn:Ex.
    2:{ apply nth_error_None in Ex. rewrite (kq_splen _ _ _ _ _ _ _ _ HQ) in Ex. lia. }
    rewrite (proj2 (rd_ok _ _ _) Ex). cbn [bind].
    destruct x as [o|].
    2:{ left. unfold rassert. rewrite Hasrt. cbn [orb negb bind]. eexists. split; [reflexivity|].
        unfold resource_fault. simpl. auto 10. }
    rewrite rassert_true. cbn [bind].
    destruct (match sender with Some o' => Nat.eqb o o' | None => false end).
    + cbn [bind]. apply IH; auto. intros q Hq. apply Hps. now right.
    + destruct (kq_sp _ _ _ _ _ _ _ _ HQ _ _ Ex) as (a & Ho & Ep).
      assert (Hreg : reg (k_sp s) a o) by (unfold reg; now rewrite Ep).
      destruct (post_led false s env lo led o a e Hlo HI He ltac:(right; right; left; exact Hi) Ho Hreg)
        as [E|(s' & q' & E & HI' & He' & Hg & _ & _ & _ & Hc & _ & Hef & _)]; rewrite E; cbn [bind].
      * left. eexists. split; [reflexivity|]. apply (rf_post false).
      * set (led1 := fold_left led_step (labs ++ [KPut false o e]) led0).
        assert (E1 : led1 = led_step led (KPut false o e)).
        { unfold led1. rewrite fold_left_app. reflexivity. }
        specialize (IH s' (labs ++ [KPut false o e])). cbn zeta in IH. fold led1 in IH. rewrite E1 in IH.
        destruct IH as [(f & Ef & Hf)|(s2 & labs2 & E2 & H2)]; auto.
        { intros q Hq. apply Hps. now right. }
        { right. apply in_rem1_ne; [congruence|exact Hi]. }
        { left. eauto. }
        right. exists s2, (KPut false o e :: labs2). rewrite <- app_assoc in E2, H2. cbn [app] in E2, H2.
        split; [exact E2|]. cbn zeta in H2 |- *. destruct H2 as (K1 & K2 & K3 & K4 & K5 & K6).
        split; [exact K1|]. split; [exact K2|]. split; [exact K3|].
        split; [eapply grows_trans; eassumption|]. split; [|congruence].
        apply (effl_app s [KPut false o e] s' labs2 s2 Hef K5).
Qed.

Lemma ok3 {A B C} (a a' : A) (b b' : B) (x x' : C) :
  Ok (a, b, x) = Ok (a', b', x') -> a = a' /\ b = b' /\ x = x'.
Proof. intros E. injection E. auto. Qed.
Lemma safe_publish isr ch e sender led :
  holds led e -> ch < N.of_nat (k_maxch c) -> ch < 256 -> safe isr (ps_publish c ch e sender) led.
Proof.
  intros H Hc1 Hc2. constructor. intros s env lo Hlo HI Hb He.
  destruct (inc_ref_led s env lo led e Hlo HI He H) as (m' & E & _ & HI'). rewrite E. cbn [bind].
  rewrite u8_small by lia. pose proof (ki_q _ _ HI') as HQ.
  destruct (nth_error (k_ch (set_mem s m')) (N.to_nat ch)) as [g|] eqn:Eg.
  2:{ apply nth_error_None in Eg. rewrite (kq_chlen _ _ _ _ _ _ _ _ HQ) in Eg. lia. }
  rewrite (proj2 (rd_ok _ _ _) Eg). cbn [bind].
  destruct (kq_ch _ _ _ _ _ _ _ _ HQ _ _ Eg) as [CS HR].
  rewrite (rg_traverse_rel (q_rg (k_qc c)) g CS) by auto.
  assert (Hg0 : sgrows s (set_mem s m')) by apply grows_refl.
  destruct (publish_fold e sender env lo led Hlo (elements (max_sma (q_rg (k_qc c))) CS) (set_mem s m') [KInc e])
    as [(f & Ef & Hf)|(s2 & labs2 & E2 & K1 & K2 & K3 & K4 & K5 & K6)].
  - intros p Hp. now apply in_elements in Hp.
  - exact HI'.
  - cbn [fold_left led_step]. intros x [<-|Hx]; [exact I|]. apply in_rem1 in Hx.
    eapply ev_grows; [exact Hg0| |apply He; exact Hx]. auto.
  - now left.
  - rewrite Ef. cbn [bind]. split; [|discriminate]. intros flt Eflt. injection Eflt as <-. exact Hf.
  - rewrite E2. cbn [bind]. split; [discriminate|].
    intros s1 l1 p1 E1. apply ok3 in E1. destruct E1 as (<- & <- & <-). cbn zeta.
    split; [split; [exact K1|split; [exact K2|split]]|].
    + intros _. eapply grows_trans; [exact Hg0|exact K4].
    + apply effl_eff; [|apply quiet_pseq; [apply quiet_atom|auto]].
      apply (effl_app s [KInc e] (set_mem s m') labs2 s2); [intros ?; reflexivity|exact K5].
    + apply safe_pseq; [intros; constructor|auto|]. apply safe_gc. right; right. exact K3.
Qed.

(** *** Timers *)
Lemma tick_fold env lo led0 : (forall x, lo x <= env x)%nat -> forall ps s labs,
  let led := fold_left led_step labs led0 in
  (forall o e, In (o, e) ps -> In (LReg o) led0 /\ stat statics e) ->
  (forall o, In (LReg o) led0 -> In (LReg o) led) ->
  KInv s (Lc led env) -> evs s lo led ->
  let r := fold_left (fun r pe =>
        do (s, labs) <- r; do (s, l) <- post_sec c false s (fst pe) (snd pe); Ok (s, labs ++ l))
      ps (Ok (s, labs)) in
  (exists f, r = Fault f /\ resource_fault f) \/
  exists s' labs', r = Ok (s', labs ++ labs') /\
    let led' := fold_left led_step (labs ++ labs') led0 in
    KInv s' (Lc led' env) /\ evs s' lo led' /\ sgrows s s' /\ effl s labs' s'.
Proof.
  intros Hlo. induction ps as [|[o e] ps IH]; intros s labs led Hps Hkeep HI He; cbn zeta; cbn [fold_left].
  - right. exists s, []. rewrite app_nil_r. split; [reflexivity|]. cbn zeta.
    split; [exact HI|]. split; [exact He|]. split; [apply grows_refl|]. intros ?; reflexivity.
  - cbn [bind fst snd]. destruct (Hps o e ltac:(now left)) as [Hr Hst].
    destruct (He _ (Hkeep _ Hr)) as (a & Ho & Hreg).
    destruct (post_led false s env lo led o a e Hlo HI He ltac:(left; exact Hst) Ho Hreg)
      as [E|(s' & q' & E & HI' & He' & Hg & _ & _ & _ & Hc & _ & Hef & _)]; rewrite E; cbn [bind].
    + left. exists (FAssert 223). split; [|apply (rf_post false)]. clear.
      induction ps as [|pe ps IHp]; [reflexivity|]. cbn [fold_left bind]. exact IHp.
    + set (led1 := fold_left led_step (labs ++ [KPut false o e]) led0).
      assert (E1 : led1 = led_step led (KPut false o e)).
      { unfold led1. rewrite fold_left_app. reflexivity. }
      specialize (IH s' (labs ++ [KPut false o e])). cbn zeta in IH. fold led1 in IH. rewrite E1 in IH.
      destruct IH as [Hf|(s2 & labs2 & E2 & H2)]; auto.
      { intros o' e' Hi. apply Hps. now right. }
      { intros o' Hi. right. apply in_rem1_ne; [congruence|apply Hkeep; exact Hi]. }
      right. exists s2, (KPut false o e :: labs2). rewrite <- app_assoc in E2, H2. cbn [app] in E2, H2.
      split; [exact E2|]. cbn zeta in H2 |- *. destruct H2 as (K1 & K2 & K3 & K4).
      split; [exact K1|]. split; [exact K2|].
      split; [eapply grows_trans; eassumption|].
      apply (effl_app s [KPut false o e] s' labs2 s2 Hef K4).
Qed.

Lemma safe_tick isr ps led :
  (forall o e, In (o, e) ps -> In (LReg o) led /\ stat statics e) -> safe isr (tick_posts c ps) led.
Proof.
  intros H. constructor. intros s env lo Hlo HI Hb He.
  destruct (tick_fold env lo led Hlo ps s [] H ltac:(auto) HI He) as [(f & Ef & Hf)|(s2 & labs2 & E2 & K1 & K2 & K3 & K4)].
  - rewrite Ef. cbn [bind]. split; [|discriminate]. intros flt E1. injection E1 as <-. exact Hf.
  - rewrite E2. cbn [bind]. split; [discriminate|].
    intros s1 l1 p1 E1. injection E1 as <- <- <-. cbn zeta.
    split; [|constructor]. split; [exact K1|]. split; [exact K2|]. split; [auto|].
    apply effl_eff; [exact K4|auto].
Qed.
End K.
