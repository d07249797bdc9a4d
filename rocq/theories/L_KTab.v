(** Proofs: subscription tables, the registry and the width of the reference
    counter, for every state. *)
From Verif Require Import Base L_Base M_RdyGrp S_RdyGrp L_RdyGrp M_Queue S_Queue L_Queue
  M_MemPool S_MemPool L_MemPool M_Kernel S_Kernel L_KMem L_KQueue L_Kernel L_KProps.
Local Open Scope N_scope.

Section Tab.
Context (c : kcfg).

(** *** What the other functions leave alone *)
Definition keep (s s' : kst) : Prop := k_ch s' = k_ch s /\ map ao_prio (k_ao s') = map ao_prio (k_ao s).
Lemma keep_refl s : keep s s.
Proof. split; reflexivity. Qed.
Lemma keep_trans s1 s2 s3 : keep s1 s2 -> keep s2 s3 -> keep s1 s3.
Proof. intros [H1 H2] [H3 H4]. split; congruence. Qed.

Inductive keeps : prog -> Prop :=
| ks_ret v : keeps (Ret v)
| ks_atom f : (forall s s' l p', f s = Ok (s', l, p') -> keep s s' /\ keeps p') -> keeps (Atom f)
| ks_user u k : keeps k -> keeps (User u k).

Lemma keeps_exec : forall p, keeps p -> forall s s' l v, exec p s = Ok (s', l, v) -> keep s s'.
Proof.
  fix IH 1. intros [v|f|u k] H s s' l v' E; cbn [exec] in E.
  - injection E as <- <- <-. apply keep_refl.
  - destruct (f s) as [[[s1 l1] p1]|] eqn:Ef; [|discriminate].
    destruct (exec p1 s1) as [[[s2 l2] v2]|] eqn:Ep; [|discriminate]. injection E as <- <- <-.
    assert (Hp : keep s s1 /\ keeps p1). { inversion H; subst. eauto. }
    eapply keep_trans; [apply Hp|]. eapply IH; [apply Hp|exact Ep].
  - apply IH in E; [exact E|]. now inversion H.
Qed.
Lemma keeps_pseq : forall p k, keeps p -> (forall v, keeps (k v)) -> keeps (pseq p k).
Proof.
  fix IH 1. intros [v|f|u p] k H Hk; cbn [pseq].
  - apply Hk.
  - constructor. intros s s' l p' E.
    destruct (f s) as [[[s1 l1] p1]|] eqn:Ef; [|discriminate]. injection E as <- <- <-.
    assert (Hp : keep s s1 /\ keeps p1). { inversion H; subst. eauto. }
    split; [apply Hp|]. apply IH; [apply Hp|exact Hk].
  - constructor. apply IH; [now inversion H|exact Hk].
Qed.

Ltac inv3 := repeat (inv_ok; match goal with
  | v : (_ * _)%type |- _ => destruct v
  | H : (let (_, _) := ?v in _) = Ok _ |- _ => destruct v
  | H : (let _ := _ in _) = Ok _ |- _ => cbv zeta in H
  end); inv_ok.

Lemma keep_inc s e s' : inc_ref s e = Ok s' -> keep s s'.
Proof.
  unfold inc_ref. intros H. inv3. match goal with H : (if ?b then _ else _) = Ok _ |- _ => destruct b end; inv3; split; reflexivity.
Qed.
Lemma keep_ao s s' o a q : rd (k_ao s) o = Ok a -> k_ao s' = upd (k_ao s) o (mkAo (ao_prio a) q) -> k_ch s' = k_ch s -> keep s s'.
Proof.
  intros Hr Ha Hc. split; [exact Hc|]. rewrite Ha. apply rd_ok in Hr. eapply map_upd_same; [exact Hr|reflexivity].
Qed.
Lemma keep_post lifo s o e s' l : post_sec c lifo s o e = Ok (s', l) -> keep s s'.
Proof.
  unfold post_sec. intros H. apply bind_ok in H. destruct H as [s1 [H1 H]]. eapply keep_trans; [eapply keep_inc; exact H1|].
  inv3. match goal with H : wr _ _ _ = Ok _ |- _ => apply wr_ok in H; destruct H as [_ ->] end.
  eapply keep_ao; [eassumption|reflexivity|reflexivity].
Qed.
Lemma keep_evt_get s me s' b : evtPool_get c s me = Ok (s', b) -> keep s s'.
Proof. unfold evtPool_get. intros H. inv3. destruct me; inv3; split; reflexivity. Qed.
Lemma keep_evt_put s me e s' : evtPool_put c s me e = Ok s' -> keep s s'.
Proof. unfold evtPool_put. intros H. inv3. destruct me; inv3; split; reflexivity. Qed.

Lemma keeps_gc e : keeps (fwk_gc c e).
Proof.
  constructor. intros s s' l p' E. inv3. split; [apply keep_refl|]. destruct (_ =? 0); [constructor|].
  constructor. intros s1 s1' l1 p1 E. inv3. destruct (1 <? _); inv3.
  - split; [split; reflexivity|constructor].
  - split; [apply keep_refl|]. constructor. intros s2 s2' l2 p2 E. inv3. split; [eapply keep_evt_put; eauto|constructor].
Qed.
Lemma keeps_ae sz sig : keeps (fwk_ae c sz sig).
Proof.
  constructor. intros s s' l p' E. inv3. split; [apply keep_refl|].
  constructor. intros s1 s1' l1 p1 E. inv3. split; [eapply keep_evt_get; eauto|].
  constructor. intros s2 s2' l2 p2 E. inv3. split; [split; reflexivity|constructor].
Qed.
Lemma trav_inv {W} (P : W -> Prop) g (cb : N -> W -> res W) w n w' :
  (forall p w w', P w -> cb p w = Ok w' -> P w') -> P w -> rg_traverse g cb w = Ok (n, w') -> P w'.
Proof.
  intros Hcb Hw E.
  assert (Hbits : forall row k b col n0 w0 n1 w1, P w0 -> rg_bits cb row k b col n0 w0 = Ok (n1, w1) -> P w1).
  { intros row. induction k as [|k IH]; intros b col n0 w0 n1 w1 H0 E0; cbn [rg_bits] in E0; [congruence|].
    destruct (col =? 0); [congruence|]. destruct (N.odd col); [|eapply IH; eauto].
    apply bind_ok in E0. destruct E0 as [w2 [E1 E2]]. eapply IH; [|exact E2]. eapply Hcb; eauto. }
  assert (Hrows : forall tbl row n0 w0 n1 w1, P w0 -> rg_rows cb row tbl n0 w0 = Ok (n1, w1) -> P w1).
  { induction tbl as [|b t IH]; intros row n0 w0 n1 w1 H0 E0; cbn [rg_rows] in E0; [congruence|].
    apply bind_ok in E0. destruct E0 as [[n2 w2] [E1 E2]]. eapply IH; [|exact E2]. eapply Hbits; eauto. }
  unfold rg_traverse in E. destruct (negb (rg_grp g =? 0)); [eapply Hrows; eauto|congruence].
Qed.
Lemma keep_cb e sender s0 p w w' : keep s0 (fst w) -> ps_cb c e sender p w = Ok w' -> keep s0 (fst w').
Proof.
  destruct w as [s labs]. cbn [fst]. intros H E. unfold ps_cb in E. inv3. destruct v as [o|].
  - destruct (match sender with Some o' => Nat.eqb o o' | None => false end); inv3; [exact H|].
    cbn [fst]. eapply keep_trans; [exact H|]. eapply keep_post; eauto.
  - destruct sender; inv3; exact H.
Qed.
Lemma keep_tick ps : forall s labs s' labs',
  fold_left (fun r pe => do (s, labs) <- r; do (s, l) <- post_sec c false s (fst pe) (snd pe); Ok (s, labs ++ l))
    ps (Ok (s, labs)) = Ok (s', labs') -> keep s s'.
Proof.
  induction ps as [|pe ps IH]; intros s labs s' labs' E; cbn [fold_left bind] in E.
  - injection E as <- _. apply keep_refl.
  - destruct (post_sec c false s (fst pe) (snd pe)) as [[s1 l1]|f] eqn:Ep; cbn [bind] in E.
    + apply IH in E. eapply keep_trans; [eapply keep_post; exact Ep|exact E].
    + exfalso. clear - E. induction ps as [|pe' ps IH]; cbn [fold_left bind] in E; [discriminate|auto].
Qed.

Definition is_sub (op : kop) : bool := match op with OSub _ _ | OUnsub _ _ | OUnsubAll _ => true | _ => false end.

Lemma keeps_register o : keeps (sma_register c o).
Proof.
  constructor. intros s s' l p' E. inv3. split; [apply keep_refl|].
  constructor. intros s1 s1' l1 p1 E. inv3. split; [split; reflexivity|constructor].
Qed.
Lemma keeps_api op : is_sub op = false -> keeps (api c op).
Proof.
  destruct op as [sz sig|e|e|lifo o e|ch e sn|ch o|ch o|o|d e|o d|o qs n|ps|o]; try discriminate; intros _; cbn [api].
  - apply keeps_ae.
  - apply keeps_gc.
  - constructor. intros s s' l p' E. inv3. split; [eapply keep_inc; eauto|constructor].
  - constructor. intros s s' l p' E. inv3. split; [eapply keep_post; eauto|constructor].
  - constructor. intros s s' l p' E. apply bind_ok in E. destruct E as [s1 [E1 E]].
    apply bind_ok in E. destruct E as [g [E2 E]]. apply bind_ok in E. destruct E as [[n [s2 labs]] [E3 E]].
    apply ok3 in E. destruct E as (<- & <- & <-). split.
    + eapply keep_trans; [eapply keep_inc; exact E1|].
      apply (trav_inv (fun w => keep s1 (fst w)) _ _ _ _ _ (keep_cb e sn s1)) in E3; [exact E3|apply keep_refl].
    + apply keeps_pseq; [apply keeps_gc|constructor].
  - constructor. intros s s' l p' E. inv3. split; [|constructor].
    eapply keep_trans; [eapply keep_inc; eassumption|split; reflexivity].
  - constructor. intros s s' l p' E. inv3.
    match goal with v : option N |- _ => destruct v; cbv zeta in *; inv3 end; [|split; [split; reflexivity|constructor]].
    split; [split; reflexivity|]. constructor. intros s1 s1' l1 p1 E. inv3. split; [eapply keep_post; eauto|].
    constructor. intros s2 s2' l2 p2 E. inv3. destruct (_ =? 0); inv3; split; [apply keep_refl|constructor|split; reflexivity|constructor].
  - constructor. intros s s' l p' E. apply bind_ok in E. destruct E as [u [_ E]].
    apply bind_ok in E. destruct E as [a [E1 E]]. apply bind_ok in E. destruct E as [ls [E2 E]].
    apply wr_ok in E2. destruct E2 as [_ ->]. apply ok3 in E. destruct E as (<- & <- & <-). split.
    + eapply keep_ao; [exact E1|reflexivity|reflexivity].
    + apply keeps_pseq; [apply keeps_register|]. intros v. repeat constructor.
  - constructor. intros s s' l p' E. inv3. split; [eapply keep_tick; eauto|constructor].
  - constructor. intros s s' l p' E. inv3. split; [apply keep_refl|].
    constructor. intros s1 s1' l1 p1 E. inv3. split; [split; reflexivity|constructor].
Qed.

(** *** Subscriptions *)
Lemma subscribed_snoc prios ops op ch p :
  subscribed prios (ops ++ [op]) ch p =
  match sub_rel prios op ch p with Some b => b | None => subscribed prios ops ch p end.
Proof.
  induction ops as [|h t IH]; cbn [app subscribed existsb].
  - destruct (sub_rel prios op ch p); reflexivity.
  - rewrite existsb_app. cbn [existsb]. rewrite orb_false_r, IH.
    destruct (sub_rel prios op ch p) as [b|].
    + now rewrite orb_true_r.
    + rewrite orb_false_r. reflexivity.
Qed.

Section Sub.
Context (Hmax : 1 <= max_sma (q_rg (k_qc c)) <= 64).
Notation rgc := (q_rg (k_qc c)).

Definition sub_tab (s : kst) (f : N -> N -> bool) : Prop :=
  length (k_ch s) = k_maxch c /\
  forall i g, nth_error (k_ch s) i = Some g -> rg_rel rgc g (f (N.of_nat i)).

Lemma unsub_all_rel p f : p < max_sma rgc -> forall l k,
  (forall i g, nth_error l i = Some g -> rg_rel rgc g (f (k + N.of_nat i))) ->
  exists l', unsub_all c l p = Ok l' /\ length l' = length l /\
    forall i g, nth_error l' i = Some g -> rg_rel rgc g (set_del (f (k + N.of_nat i)) p).
Proof.
  intros Hp. induction l as [|g t IH]; intros k H; cbn [unsub_all].
  - exists []. split; [reflexivity|]. split; [reflexivity|]. intros [|i] x Hx; discriminate.
  - destruct (rg_setUnready_rel _ _ _ p Hmax (H 0%nat g eq_refl) Hp) as (g' & E & HR'). rewrite E. cbn [bind].
    destruct (IH (k + 1)) as (t' & Et & Hl & Ht).
    { intros i x Hx. specialize (H (S i) x Hx). replace (k + 1 + N.of_nat i) with (k + N.of_nat (S i)) by lia. exact H. }
    rewrite Et. cbn [bind]. exists (g' :: t'). split; [reflexivity|]. split; [cbn [length]; lia|].
    intros [|i] x Hx; cbn [nth_error] in Hx.
    + injection Hx as <-. exact HR'.
    + specialize (Ht i x Hx). replace (k + N.of_nat (S i)) with (k + 1 + N.of_nat i) by lia. exact Ht.
Qed.

Lemma sub_call s o a ch (b : bool) f : sub_tab s f -> nth_error (k_ao s) o = Some a -> ao_prio a < max_sma rgc ->
  u8 ch < N.of_nat (k_maxch c) ->
  exists l', exec (if b then ps_subscribe c ch o else ps_unsubscribe c ch o) s = Ok (set_ch s l', [], 0) /\
    sub_tab (set_ch s l') (fun ch' p => if (ch' =? u8 ch) && (p =? ao_prio a) then b else f ch' p).
Proof.
  intros [Hl Hf] Ho Hp Hc.
  destruct (nth_error (k_ch s) (N.to_nat (u8 ch))) as [g|] eqn:Eg.
  2:{ apply nth_error_None in Eg. lia. }
  specialize (Hf _ _ Eg) as HR. rewrite N2Nat.id in HR.
  assert (Hg : exists g', (if b then rg_setReady rgc g (ao_prio a) else rg_setUnready rgc g (ao_prio a)) = Ok g' /\
    rg_rel rgc g' (if b then set_add (f (u8 ch)) (ao_prio a) else set_del (f (u8 ch)) (ao_prio a))).
  { destruct b; [apply rg_setReady_rel|apply rg_setUnready_rel]; assumption. }
  destruct Hg as (g' & Eg' & HR'). exists (upd (k_ch s) (N.to_nat (u8 ch)) g'). split.
  { destruct b; cbn [exec ps_subscribe ps_unsubscribe]; (replace (u8 ch <? N.of_nat (k_maxch c)) with true by lia);
      rewrite rassert_true; cbn [bind]; rewrite (proj2 (rd_ok _ _ _) Ho); cbn [bind]; rewrite (proj2 (rd_ok _ _ _) Eg); cbn [bind];
      rewrite Eg'; cbn [bind]; rewrite wr_lt by (eapply nth_some_lt; eauto); reflexivity. }
  split; [cbn [k_ch set_ch]; now rewrite length_upd|]. cbn [k_ch set_ch]. intros i x Hx.
  destruct (Nat.eq_dec (N.to_nat (u8 ch)) i) as [<-|Hne].
  - rewrite nth_upd_eq in Hx by (eapply nth_some_lt; eauto). injection Hx as <-. rewrite N2Nat.id, N.eqb_refl. cbn [andb].
    eapply rg_rel_ext; [|exact HR']. intros p. destruct b; unfold set_add, set_del; destruct (p =? ao_prio a); reflexivity.
  - rewrite nth_upd_ne in Hx by auto. specialize (Hf _ _ Hx). eapply rg_rel_ext; [|exact Hf].
    intros p. cbv beta. replace (N.of_nat i =? u8 ch) with false by lia. reflexivity.
Qed.

Lemma unsub_call s o a f : sub_tab s f -> nth_error (k_ao s) o = Some a -> ao_prio a < max_sma rgc ->
  exists l', exec (ps_unsubscribeAll c o) s = Ok (set_ch s l', [], 0) /\
    sub_tab (set_ch s l') (fun ch' p => if p =? ao_prio a then false else f ch' p).
Proof.
  intros [Hl Hf] Ho Hp. destruct (unsub_all_rel (ao_prio a) f Hp (k_ch s) 0) as (l' & E & Hl' & H).
  { intros i g Hg. rewrite N.add_0_l. auto. }
  exists l'. split.
  { cbn [exec ps_unsubscribeAll]. rewrite (proj2 (rd_ok _ _ _) Ho). cbn [bind]. rewrite E. reflexivity. }
  split; [cbn [k_ch set_ch]; congruence|]. cbn [k_ch set_ch]. intros i g Hg. specialize (H i g Hg). rewrite N.add_0_l in H.
  eapply rg_rel_ext; [|exact H]. intros p. unfold set_del. destruct (p =? ao_prio a); reflexivity.
Qed.

Lemma sub_tab_ext s f f' : (forall ch p, f ch p = f' ch p) -> sub_tab s f -> sub_tab s f'.
Proof. intros E [H1 H2]. split; [exact H1|]. intros i g Hg. eapply rg_rel_ext; [|exact (H2 i g Hg)]. intros p. apply E. Qed.

Lemma exec_sub_inv (b : bool) s ch o s' l v :
  exec (if b then ps_subscribe c ch o else ps_unsubscribe c ch o) s = Ok (s', l, v) ->
  exists a, nth_error (k_ao s) o = Some a /\ (N.to_nat (u8 ch) < length (k_ch s))%nat.
Proof.
  intros E. destruct b; cbn [exec ps_subscribe ps_unsubscribe] in E;
    (destruct (rassert _ _ _) as [u|]; cbn [bind] in E; [|discriminate]);
    (destruct (rd (k_ao s) o) as [a|] eqn:Ea; cbn [bind] in E; [|discriminate]);
    (destruct (rd (k_ch s) (N.to_nat (u8 ch))) as [g|] eqn:Eg; [|discriminate]);
    exists a; apply rd_ok in Ea; apply rd_ok in Eg; split; auto; eapply nth_some_lt; eauto.
Qed.

Lemma subs_inv s0 : sub_tab s0 (fun _ _ => false) -> (forall a, In a (k_ao s0) -> ao_prio a < max_sma rgc) ->
  forall ops s', exec_all c s0 ops = Ok s' ->
    sub_tab s' (subscribed (map ao_prio (k_ao s0)) ops) /\ map ao_prio (k_ao s') = map ao_prio (k_ao s0).
Proof.
  intros H0 Hp. set (prios := map ao_prio (k_ao s0)). induction ops as [|op ops IH] using rev_ind; intros s' E.
  - cbn [exec_all] in E. injection E as <-. split; [exact H0|reflexivity].
  - assert (Eapp : forall s t1 t2, exec_all c s (t1 ++ t2) = match exec_all c s t1 with Ok s' => exec_all c s' t2 | Fault f => Fault f end).
    { intros s t1. revert s. induction t1 as [|h t IHt]; intros s t2; cbn [app exec_all]; [reflexivity|].
      destruct (exec (api c h) s) as [[[? ?] ?]|]; [apply IHt|reflexivity]. }
    rewrite Eapp in E. destruct (exec_all c s0 ops) as [s|] eqn:Es; [|discriminate].
    destruct (IH s eq_refl) as [HT Hpr]. cbn [exec_all] in E.
    destruct (exec (api c op) s) as [[[s1 l1] v1]|] eqn:Ex; [|discriminate]. injection E as <-.
    assert (Hrange : forall o a, nth_error (k_ao s) o = Some a -> nth_error prios o = Some (ao_prio a) /\ ao_prio a < max_sma rgc).
    { intros o a Ho. assert (H1 : nth_error prios o = Some (ao_prio a)) by (rewrite <- Hpr; now apply map_nth_error).
      split; [exact H1|]. unfold prios in H1. rewrite nth_error_map in H1. destruct (nth_error (k_ao s0) o) as [a0|] eqn:Ea; [|discriminate].
      injection H1 as <-. apply Hp. eapply nth_error_In; eauto. }
    destruct (is_sub op) eqn:Eis.
    + assert (Hsb : forall (b : bool) ch o, exec (if b then ps_subscribe c ch o else ps_unsubscribe c ch o) s = Ok (s1, l1, v1) ->
        sub_tab s1 (fun ch' p => match (if (ch' =? u8 ch) && match nth_error prios o with Some p' => p =? p' | None => false end then Some b else None)
           with Some b => b | None => subscribed prios ops ch' p end) /\ map ao_prio (k_ao s1) = prios).
      { intros b ch o Eb. destruct (exec_sub_inv _ _ _ _ _ _ _ Eb) as (a & Ho & Hlen). rewrite (proj1 HT) in Hlen.
        destruct (Hrange o a Ho) as [Hn Hlt].
        destruct (sub_call s o a ch b _ HT Ho Hlt ltac:(lia)) as (l' & El & HT'). rewrite El in Eb. injection Eb as <- _ _.
        split; [|exact Hpr]. eapply sub_tab_ext; [|exact HT']. intros ch' p. cbv beta. rewrite Hn.
        destruct ((ch' =? u8 ch) && (p =? ao_prio a)); reflexivity. }
      destruct op as [| | | | |ch o|ch o|o| | | | |]; try discriminate; cbn [api] in Ex.
      * destruct (Hsb true ch o Ex) as [H1 H2]. split; [|exact H2]. eapply sub_tab_ext; [|exact H1].
        intros ch' p. cbv beta. rewrite subscribed_snoc. reflexivity.
      * destruct (Hsb false ch o Ex) as [H1 H2]. split; [|exact H2]. eapply sub_tab_ext; [|exact H1].
        intros ch' p. cbv beta. rewrite subscribed_snoc. reflexivity.
      * cbn [exec ps_unsubscribeAll] in Ex. destruct (rd (k_ao s) o) as [a|] eqn:Ea; [|discriminate].
        pose proof (proj1 (rd_ok _ _ _) Ea) as Ho. destruct (Hrange o a Ho) as [Hn Hlt].
        destruct (unsub_call s o a _ HT Ho Hlt) as (l' & El & HT').
        cbn [exec ps_unsubscribeAll] in El. rewrite Ea in El. cbn [bind] in El, Ex.
        rewrite Ex in El. injection El as -> _ _. split; [|exact Hpr].
        eapply sub_tab_ext; [|exact HT']. intros ch' p. cbv beta. rewrite subscribed_snoc. cbn [sub_rel]. rewrite Hn.
        destruct (p =? ao_prio a); reflexivity.
    + destruct (keeps_exec _ (keeps_api op Eis) _ _ _ _ Ex) as [Hk1 Hk2].
      split; [|congruence]. apply sub_tab_ext with (f := subscribed prios ops).
      * intros ch' p. rewrite subscribed_snoc. destruct op; try discriminate; reflexivity.
      * destruct HT as [H1 H2]. split; rewrite Hk1; assumption.
Qed.

Lemma init_tab s : k_ch s = pubsub_init c -> sub_tab s (fun _ _ => false).
Proof.
  intros E. split; rewrite E; unfold pubsub_init; [apply repeat_length|].
  intros i g Hg. apply nth_error_In, repeat_spec in Hg. subst g. apply rg_init_rel.
Qed.

Lemma subs_effect s0 ops s' ch : k_ch s0 = pubsub_init c -> (forall a, In a (k_ao s0) -> ao_prio a < max_sma rgc) ->
  exec_all c s0 ops = Ok s' -> ch < N.of_nat (k_maxch c) ->
  ascending (subscribers s' ch) /\
  forall p, In p (subscribers s' ch) <-> subscribed (map ao_prio (k_ao s0)) ops ch p = true.
Proof.
  intros H0 Hp E Hc. destruct (subs_inv s0 (init_tab s0 H0) Hp ops s' E) as [[Hl Hf] _].
  unfold subscribers. destruct (nth_error (k_ch s') (N.to_nat ch)) as [g|] eqn:Eg.
  2:{ apply nth_error_None in Eg. lia. }
  specialize (Hf _ _ Eg). rewrite N2Nat.id in Hf. rewrite (rg_list_rel _ _ _ Hmax Hf). split; [apply elements_asc|].
  intros p. rewrite in_elements. split; [intros []; assumption|]. intros Hs. split; [|exact Hs].
  exact (rr_max _ _ _ Hf p Hs).
Qed.

Lemma subs_total s0 ops s (b : bool) ch o a : k_ch s0 = pubsub_init c -> (forall a, In a (k_ao s0) -> ao_prio a < max_sma rgc) ->
  exec_all c s0 ops = Ok s -> nth_error (k_ao s) o = Some a ->
  (u8 ch < N.of_nat (k_maxch c) -> exists l', exec (api c (if b then OSub ch o else OUnsub ch o)) s = Ok (set_ch s l', [], 0)) /\
  (q_asrt (k_qc c) = true -> N.of_nat (k_maxch c) <= u8 ch ->
     exec (api c (if b then OSub ch o else OUnsub ch o)) s = Fault (FAssert (if b then 125 else 137)%nat)) /\
  (exists l', exec (api c (OUnsubAll o)) s = Ok (set_ch s l', [], 0)).
Proof.
  intros H0 Hp E Ho. destruct (subs_inv s0 (init_tab s0 H0) Hp ops s E) as [HT Hpr].
  assert (Hlt : ao_prio a < max_sma rgc).
  { assert (H1 : nth_error (map ao_prio (k_ao s0)) o = Some (ao_prio a)) by (rewrite <- Hpr; now apply map_nth_error).
    rewrite nth_error_map in H1. destruct (nth_error (k_ao s0) o) as [a0|] eqn:Ea; [|discriminate].
    injection H1 as <-. apply Hp. eapply nth_error_In; eauto. }
  split; [|split].
  - intros Hc. destruct (sub_call s o a ch b _ HT Ho Hlt Hc) as (l' & El & _). exists l'. destruct b; exact El.
  - intros Ha Hc. destruct b; cbn [api exec ps_subscribe ps_unsubscribe]; (replace (u8 ch <? N.of_nat (k_maxch c)) with false by lia);
      rewrite Ha; reflexivity.
  - destruct (unsub_call s o a _ HT Ho Hlt) as (l' & El & _). eauto.
Qed.
End Sub.

(** *** Registry *)
Lemma reg_inv (Ha : q_asrt (k_qc c) = true) (Hm : 1 <= max_sma (q_rg (k_qc c))) : forall ops s s' m,
  length (k_sp s) = N.to_nat (max_sma (q_rg (k_qc c))) ->
  (forall p, p < max_sma (q_rg (k_qc c)) -> nth_error (k_sp s) (N.to_nat p) = Some (m p)) ->
  reg_all c s ops = Ok s' ->
  (forall p, p < max_sma (q_rg (k_qc c)) -> nth_error (k_sp s') (N.to_nat p) = Some (reg_map (map ao_prio (k_ao s)) ops m p)) /\
  k_ao s' = k_ao s /\ length (k_sp s') = length (k_sp s).
Proof.
  induction ops as [|[b o] ops IH]; intros s s' m Hl Hm0 E; cbn [reg_all] in E.
  - injection E as <-. auto.
  - destruct (exec (reg_call c b o) s) as [[[s1 l1] v1]|] eqn:Ex; [|discriminate].
    assert (H1 : exists a, nth_error (k_ao s) o = Some a /\ (N.to_nat (ao_prio a) < length (k_sp s))%nat /\
      s1 = set_sp s (upd (k_sp s) (N.to_nat (ao_prio a)) (if b then Some o else None))).
    { destruct b; cbn [reg_call sma_register sma_unregister exec] in Ex;
        (destruct (rd (k_ao s) o) as [a|] eqn:Ea; cbn [bind] in Ex; [|discriminate]);
        (match type of Ex with context [if ?t then _ else Ok false] => destruct t end);
        cbn [bind] in Ex; rewrite ?Ha in Ex; try discriminate;
        (destruct (rd (k_sp s) (N.to_nat (ao_prio a))) as [y|] eqn:Ey; cbn [bind] in Ex; [|discriminate]);
        (match type of Ex with context [rassert true ?n ?t] => destruct t end); cbn [rassert orb negb bind] in Ex; try discriminate;
        apply rd_ok in Ey; apply rd_ok in Ea; pose proof (nth_some_lt _ _ _ Ey) as Hlt;
        cbn [exec] in Ex; rewrite wr_lt in Ex by exact Hlt; cbn [bind exec] in Ex; injection Ex as <- _ _; exists a; auto. }
    destruct H1 as (a & Ho & Hlt & ->).
    edestruct (IH (set_sp s (upd (k_sp s) (N.to_nat (ao_prio a)) (if b then Some o else None))) s'
              (fun p => if match nth_error (map ao_prio (k_ao s)) o with Some p' => p =? p' | None => false end
                              then (if b then Some o else None) else m p)) as (H1 & H2 & H3); [| |exact E|].
    + cbn [k_sp set_sp]. now rewrite length_upd.
    + intros p Hp. cbn [k_sp set_sp]. rewrite nth_error_map, Ho. cbn [option_map].
      destruct (N.eqb_spec p (ao_prio a)) as [->|Hne].
      * now rewrite nth_upd_eq.
      * rewrite nth_upd_ne by lia. auto.
    + split; [exact H1|]. cbn [k_sp set_sp k_ao] in *. split; [exact H2|]. now rewrite H3, length_upd.
Qed.

Lemma register_at s o a : q_asrt (k_qc c) = true -> 1 <= max_sma (q_rg (k_qc c)) ->
  length (k_sp s) = N.to_nat (max_sma (q_rg (k_qc c))) -> nth_error (k_ao s) o = Some a ->
  (nth_error (k_sp s) (N.to_nat (ao_prio a)) = Some None -> ao_prio a < max_sma (q_rg (k_qc c)) ->
     exec (sma_register c o) s = Ok (set_sp s (upd (k_sp s) (N.to_nat (ao_prio a)) (Some o)), [KReg o], 0)) /\
  (max_sma (q_rg (k_qc c)) <= ao_prio a \/ (exists o', nth_error (k_sp s) (N.to_nat (ao_prio a)) = Some (Some o')) ->
     exec (sma_register c o) s = Fault (FAssert 99)).
Proof.
  intros Ha Hm Hl Ho. cbn [exec sma_register]. rewrite (proj2 (rd_ok _ _ _) Ho). cbn [bind]. split.
  - intros Hn Hlt. replace (ao_prio a <=? _) with true by lia. rewrite (proj2 (rd_ok _ _ _) Hn). cbn [bind].
    rewrite rassert_true. cbn [bind exec]. rewrite wr_lt by lia. reflexivity.
  - intros H. rewrite Ha. destruct (N.leb_spec (ao_prio a) (max_sma (q_rg (k_qc c)) - 1)) as [Hle|Hgt]; [|reflexivity].
    destruct H as [H|(o' & H)]; [lia|]. rewrite (proj2 (rd_ok _ _ _) H). reflexivity.
Qed.

Lemma unregister_at s o a : q_asrt (k_qc c) = true -> 1 <= max_sma (q_rg (k_qc c)) ->
  length (k_sp s) = N.to_nat (max_sma (q_rg (k_qc c))) -> nth_error (k_ao s) o = Some a ->
  (nth_error (k_sp s) (N.to_nat (ao_prio a)) = Some (Some o) ->
     exec (sma_unregister c o) s = Ok (set_sp s (upd (k_sp s) (N.to_nat (ao_prio a)) None), [KOff o], 0)) /\
  (max_sma (q_rg (k_qc c)) < ao_prio a \/
   (exists x, nth_error (k_sp s) (N.to_nat (ao_prio a)) = Some x /\ x <> Some o) ->
     exec (sma_unregister c o) s = Fault (FAssert 114)) /\
  (ao_prio a = max_sma (q_rg (k_qc c)) -> exec (sma_unregister c o) s = Fault (FUB UB_bounds)).
Proof.
  intros Ha Hm Hl Ho. cbn [exec sma_unregister]. rewrite (proj2 (rd_ok _ _ _) Ho). cbn [bind]. split; [|split].
  - intros Hn. pose proof (nth_some_lt _ _ _ Hn). replace (ao_prio a <=? _) with true by lia.
    rewrite (proj2 (rd_ok _ _ _) Hn). cbn [bind].
    rewrite Nat.eqb_refl, rassert_true. cbn [bind exec]. rewrite wr_lt by lia. reflexivity.
  - intros H. rewrite Ha. destruct (N.leb_spec (ao_prio a) (max_sma (q_rg (k_qc c)))) as [Hle|Hgt]; [|reflexivity].
    destruct H as [H|(x & H & Hx)]; [lia|]. rewrite (proj2 (rd_ok _ _ _) H). cbn [bind].
    destruct x as [y|]; [|reflexivity]. destruct (Nat.eqb_spec y o); [congruence|reflexivity].
  - intros E. replace (ao_prio a <=? _) with true by lia. unfold rd.
    replace (nth_error (k_sp s) (N.to_nat (ao_prio a))) with (@None (option nat)); [reflexivity|].
    symmetry. apply nth_error_None. lia.
Qed.

(** *** The counter *)
Lemma u8_mod x : u8 x < 256.
Proof. unfold u8. apply N.mod_lt. lia. Qed.
Lemma reserve_many e sig p : e <> 0 -> p <> 0 -> forall k s n, n < 256 -> k_mem s e = Some (CEvt sig n p) ->
  exists m', exec_all c s (repeat (OReserve e) k) = Ok (set_mem s m') /\
    m' e = Some (CEvt sig (u8 (n + N.of_nat k)) p) /\ forall a, a <> e -> m' a = k_mem s a.
Proof.
  intros He Hp. induction k as [|k IH]; intros s n Hn Hm; cbn [repeat exec_all].
  - exists (k_mem s). split; [destruct s; reflexivity|]. rewrite N.add_0_r, u8_small by lia. auto.
  - cbn [api fwk_reserve exec]. unfold inc_ref. rewrite (hdr_rd_ok _ _ _ _ _ He Hm). cbn [bind].
    destruct (N.eqb_spec p 0); [congruence|]. rewrite (hdr_wr_ok _ _ _ _ _ _ He Hm). cbn [bind].
    set (m1 := fun x => if x =? e then Some (CEvt sig (u8 (n + 1)) p) else k_mem s x).
    destruct (IH (set_mem s m1) (u8 (n + 1)) (u8_mod _)) as (m' & E & H1 & H2).
    { cbn [k_mem set_mem]. unfold m1. now rewrite N.eqb_refl. }
    exists m'. split; [exact E|]. split.
    + rewrite H1. do 2 f_equal. unfold u8. rewrite N.add_mod_idemp_l by lia. f_equal. lia.
    + intros a Hne. rewrite H2 by exact Hne. cbn [k_mem set_mem]. unfold m1. destruct (N.eqb_spec a e); congruence.
Qed.
Lemma gc_zero s e sig p : e <> 0 -> k_mem s e = Some (CEvt sig 0 p) -> forall k, exec_all c s (repeat (OGc e) k) = Ok s.
Proof.
  intros He Hm. induction k as [|k IH]; cbn [repeat exec_all]; [reflexivity|].
  cbn [api fwk_gc exec]. rewrite (hdr_rd_ok _ _ _ _ _ He Hm). cbn [bind]. change (0 =? 0) with true. cbv iota. cbn [exec]. exact IH.
Qed.
Lemma wrap_leak s e sig p k : e <> 0 -> p <> 0 -> k_mem s e = Some (CEvt sig 0 p) ->
  exists s', exec_all c s (repeat (OReserve e) 256 ++ repeat (OGc e) k) = Ok s' /\
    k_ep s' = k_ep s /\ forall a, k_mem s' a = k_mem s a.
Proof.
  intros He Hp Hm. destruct (reserve_many e sig p He Hp 256 s 0 ltac:(lia) Hm) as (m' & E & H1 & H2).
  change (u8 (0 + N.of_nat 256)) with 0 in H1.
  assert (Eapp : forall s t1 t2, exec_all c s (t1 ++ t2) = match exec_all c s t1 with Ok s' => exec_all c s' t2 | Fault f => Fault f end).
  { intros s0 t1. revert s0. induction t1 as [|h t IHt]; intros s0 t2; cbn [app exec_all]; [reflexivity|].
    destruct (exec (api c h) s0) as [[[? ?] ?]|]; [apply IHt|reflexivity]. }
  exists (set_mem s m'). rewrite Eapp, E. split; [eapply gc_zero; [exact He|exact H1]|]. split; [reflexivity|].
  intros a. cbn [k_mem set_mem]. destruct (N.eq_dec a e) as [->|Hne]; [congruence|auto].
Qed.
End Tab.
