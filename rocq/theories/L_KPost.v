(** Proofs: posting, reserving, activating and the posts of a timer tick, as
    single calls in a reachable state. *)
From Verif Require Import Base L_Base M_RdyGrp S_RdyGrp L_RdyGrp M_Queue S_Queue L_Queue
  M_MemPool S_MemPool L_MemPool M_Kernel S_Kernel L_KMem L_KQueue L_Kernel L_KRun L_KBoot L_KProps L_KSeq L_KDefer.
Local Open Scope N_scope.

Section P.
Context (c : kcfg) (mem0 : @mem cell) (statics : list (N * N)) (prios : list N)
  (dqs : list (list (option N) * nat)) (pools : list (N * N * N)) (rs : list N).
Context (SO : sys_ok c mem0 statics prios dqs pools rs).
Notation PB := (pool_lists pools rs).
Notation KInv := (KInv c statics PB mem0 rs prios (length dqs)).
Notation reachable := (reachable c mem0 statics prios dqs pools).
Notation post_call := (post_call c mem0 statics prios dqs pools rs SO).
Notation KInv_reach := (KInv_reach c mem0 statics prios dqs pools rs SO).

Lemma registered_ao s o : registered s o = true -> exists a, nth_error (k_ao s) o = Some a.
Proof. unfold registered. destruct (nth_error (k_ao s) o); [eauto|discriminate]. Qed.

Lemma post_effect x lifo o e a : reachable x -> let s := c_s x in let l := led_all x in
  live_evt statics s l e -> registered s o = true -> nth_error (k_ao s) o = Some a ->
  (length (ao_view s o) = q_nelems (ao_q a) ->
     exec (sma_post c lifo o e) s = Fault (FAssert (if lifo then 265 else 223)%nat)) /\
  ((length (ao_view s o) < q_nelems (ao_q a))%nat ->
   exists s', exec (sma_post c lifo o e) s = Ok (s', [KPut lifo o e], 0) /\
    (forall o', ao_view s' o' = if Nat.eqb o' o then (if lifo then e :: ao_view s o else ao_view s o ++ [e]) else ao_view s o') /\
    (forall d, dq_view s' d = dq_view s d) /\ k_sp s' = k_sp s /\ k_ch s' = k_ch s /\ k_ep s' = k_ep s).
Proof.
  intros H s l Hl Hr Ho. destruct (post_call lifo s l o a e (KInv_reach x H) Hl Ho Hr) as [H1 H2].
  unfold sma_post. cbn [exec]. split.
  - intros Hf. rewrite (H1 Hf). reflexivity.
  - intros Hf. destruct (H2 Hf) as (s' & E & _ & Hv & Hd & Hsp & _ & Hch & Hep & _). rewrite E. cbn [bind exec app]. eauto 10.
Qed.

(** Reserving. *)
Lemma reserve_effect x e : reachable x -> let s := c_s x in live_evt statics s (led_all x) e ->
  exists s' sig nref pool, exec (fwk_reserve e) s = Ok (s', [KInc e], 0) /\ k_mem s e = Some (CEvt sig nref pool) /\
    (is_static statics e = true -> s' = s) /\
    (is_static statics e = false -> s' = set_mem s (k_mem s') /\
      forall a, k_mem s' a = if a =? e then Some (CEvt sig (u8 (nref + 1)) pool) else k_mem s a).
Proof.
  intros H s Hl. pose proof (KInv_reach x H) as HI. fold s in HI.
  destruct (inc_call c mem0 statics prios dqs pools rs SO s _ e HI Hl) as (m' & E & _).
  destruct (inc_ref_mem s e _ E) as (sig & nref & pool & Em & Hne & Hc).
  exists (set_mem s m'), sig, nref, pool. unfold fwk_reserve. cbn [exec]. rewrite E. cbn [bind exec app].
  split; [reflexivity|]. split; [exact Em|].
  assert (Hst : is_static statics e = true <-> pool = 0).
  { split.
    - intros Hs. destruct (gc_static c mem0 statics prios dqs pools rs SO s e ltac:(eauto) Hs) as [sg Eh].
      unfold hdr_rd in Eh. destruct (e =? 0); [discriminate|]. rewrite Em in Eh. congruence.
    - intros Hp. destruct Hl as [Hl|[Hl|Hl]]; [exact Hl|exfalso|].
      + destruct (gc_fresh c mem0 statics prios dqs pools rs SO s _ e HI Hl) as (i & sg & Eh).
        unfold hdr_rd in Eh. destruct (e =? 0); [discriminate|]. rewrite Em in Eh. injection Eh as _ _ Eh. lia.
      + destruct (held_event c mem0 statics prios dqs pools rs s _ e HI Hl) as [Hs|(i & Hb)]; [exact Hs|exfalso].
        destruct (proj1 (refcount c mem0 statics prios dqs pools rs SO x H) i e Hb Hl) as (_ & sg & Ec). fold s in Ec.
        rewrite Em in Ec. injection Ec as _ _ Ec. lia. }
  split; [intros Hs|intros Hs].
  - destruct Hc as [(_ & E1)|(Hp & _)]; [exact E1|]. apply Hst in Hs. contradiction.
  - destruct Hc as [(Hp & _)|(_ & E1)]; [apply Hst in Hp; congruence|]. split; [reflexivity|].
    assert (Em' : m' = k_mem (set_mem s m')) by reflexivity. cbn [k_mem set_mem]. rewrite Em', E1. reflexivity.
Qed.

(** The posts of one tick. *)
Lemma live_keep s s' l e e' : live_evt statics s l e' ->
  (forall y, holders s' (after_post e l) y = (holders s l y + if N.eq_dec e y then 1 else 0)%nat) ->
  live_evt statics s' (after_post e l) e'.
Proof.
  intros Hl Hh. destruct Hl as [Hl|[Hl|Hl]]; [now left| |right; right; rewrite Hh; lia].
  destruct (N.eq_dec e e') as [E|E]; [right; right; rewrite Hh; destruct (N.eq_dec e e'); [lia|congruence]|].
  right; left. unfold after_post. apply cnt_in. rewrite cnt_rem1. apply cnt_in in Hl. destruct litem_dec; [congruence|lia].
Qed.
Definition for_ao (o : nat) (ps : list (nat * N)) : list N := map snd (filter (fun pe => Nat.eqb (fst pe) o) ps).
Lemma tick_fold : forall ps s l labs, KInv s (cnt l) ->
  (forall o e, In (o, e) ps -> registered s o = true /\ live_evt statics s l e) ->
  (forall o, ps <> [] -> for_ao o ps = [] \/ ao_room s o (length (for_ao o ps))) ->
  exists s', fold_left (fun r pe => do (s, labs) <- r; do (s, l) <- post_sec c false s (fst pe) (snd pe); Ok (s, labs ++ l))
      ps (Ok (s, labs)) = Ok (s', labs ++ map (fun pe => KPut false (fst pe) (snd pe)) ps) /\
    (forall o, ao_view s' o = ao_view s o ++ for_ao o ps) /\ (forall d, dq_view s' d = dq_view s d).
Proof.
  induction ps as [|[o e] ps IH]; intros s l labs HI Hp Hr; cbn [fold_left].
  - exists s. cbn. rewrite app_nil_r. split; [reflexivity|]. split; [intros o; now rewrite app_nil_r|reflexivity].
  - destruct (Hp o e ltac:(now left)) as [Hreg Hl]. destruct (registered_ao s o Hreg) as [a Ho].
    destruct (Hr o ltac:(discriminate)) as [H0|(a0 & Ho0 & Hroom)].
    { unfold for_ao in H0. cbn [filter fst] in H0. rewrite Nat.eqb_refl in H0. discriminate. }
    assert (a0 = a) by congruence. subst a0. unfold for_ao in Hroom. cbn [filter fst] in Hroom. rewrite Nat.eqb_refl in Hroom. cbn [map length] in Hroom.
    destruct (proj2 (post_call false s l o a e HI Hl Ho Hreg) ltac:(lia))
      as (s1 & E & HI1 & Hv & Hd & Hsp & _ & _ & _ & Hq & Hh & _).
    cbn [bind fst snd]. rewrite E. cbn [bind].
    assert (Hreg1 : forall o', registered s o' = true -> registered s1 o' = true).
    { intros o' Ho'. unfold registered in *. destruct (nth_error (k_ao s) o') as [a'|] eqn:Ea; [|discriminate].
      destruct (Hq o' a' Ea) as (a'' & -> & _ & ->). now rewrite Hsp. }
    destruct (IH s1 (after_post e l) (labs ++ [KPut false o e]) HI1) as (s' & E' & Hv' & Hd').
    + intros o' e' Hi. destruct (Hp o' e' ltac:(now right)) as [H1 H2]. split; [now apply Hreg1|]. now apply (live_keep s).
    + intros o' _. destruct (Nat.eq_dec o' o) as [->|Hne].
      * destruct (Hq o a Ho) as (a'' & Ha'' & Hn & _). right. exists a''. split; [exact Ha''|]. rewrite Hn, Hv, Nat.eqb_refl, app_length. cbn [length].
        unfold for_ao. lia.
      * destruct (Hr o' ltac:(discriminate)) as [H0|(a' & Ha' & Hr')].
        { left. unfold for_ao in *. cbn [filter fst] in H0. destruct (Nat.eqb_spec o o'); [congruence|exact H0]. }
        right. destruct (Hq o' a' Ha') as (a'' & Ha'' & Hn & _). exists a''. split; [exact Ha''|]. rewrite Hn, Hv.
        destruct (Nat.eqb_spec o' o); [congruence|]. unfold for_ao in *. cbn [filter fst] in Hr'. destruct (Nat.eqb_spec o o'); [congruence|exact Hr'].
    + exists s'. rewrite E'. cbn [map fst snd]. rewrite <- app_assoc. split; [reflexivity|]. split.
      * intros o'. rewrite Hv', Hv. unfold for_ao. cbn [filter fst]. rewrite (Nat.eqb_sym o' o). destruct (Nat.eqb_spec o o') as [->|].
        { cbn [map snd]. now rewrite <- app_assoc. } { reflexivity. }
      * intros d. now rewrite Hd', Hd.
Qed.
Lemma tick_effect x ps : reachable x -> let s := c_s x in let l := led_all x in
  (forall o e, In (o, e) ps -> registered s o = true /\ live_evt statics s l e) ->
  (forall o e, In (o, e) ps -> ao_room s o (length (filter (fun pe => Nat.eqb (fst pe) o) ps))) ->
  exists s', exec (tick_posts c ps) s = Ok (s', map (fun pe => KPut false (fst pe) (snd pe)) ps, 0) /\
    (forall o, ao_view s' o = ao_view s o ++ map snd (filter (fun pe => Nat.eqb (fst pe) o) ps)) /\
    (forall d, dq_view s' d = dq_view s d).
Proof.
  intros H s l Hp Hr. destruct (tick_fold ps s l [] (KInv_reach x H) Hp) as (s' & E & Hv & Hd).
  - intros o _. unfold for_ao. destruct (filter (fun pe => Nat.eqb (fst pe) o) ps) as [|[o' e] t] eqn:Ef; [now left|right].
    assert (Hi : In (o', e) (filter (fun pe => Nat.eqb (fst pe) o) ps)) by (rewrite Ef; now left).
    apply filter_In in Hi. destruct Hi as [Hi Hf]. cbn [fst] in Hf. apply Nat.eqb_eq in Hf. subst o'.
    specialize (Hr o e Hi). rewrite Ef in Hr. rewrite map_length. exact Hr.
  - exists s'. unfold tick_posts. cbn [exec]. rewrite E. cbn [bind exec app]. rewrite app_nil_r. auto.
Qed.

(** Activating. *)
Lemma activate_effect x o a qs n : reachable x -> let s := c_s x in
  nth_error (k_ao s) o = Some a -> ao_prio a < max_sma (q_rg (k_qc c)) -> (0 < n)%nat ->
  (nth_error (k_sp s) (N.to_nat (ao_prio a)) = Some None ->
   exists s', exec (sma_activate c o qs n) s = Ok (s', [KInit o; KReg o], 0) /\
    registered s' o = true /\ (forall o', o' <> o -> registered s' o' = registered s o') /\
    (forall o', ao_view s' o' = if Nat.eqb o' o then [] else ao_view s o') /\ ao_room s' o n /\
    (forall d, dq_view s' d = dq_view s d) /\ k_rg s' = k_rg s /\ k_mem s' = k_mem s /\ k_ch s' = k_ch s) /\
  ((exists o', nth_error (k_sp s) (N.to_nat (ao_prio a)) = Some (Some o')) ->
   exec (sma_activate c o qs n) s = Fault (FAssert 99)).
Proof.
  intros H s Ho Hpr Hn. pose proof (nth_some_lt _ _ _ Ho) as Hlt.
  pose proof (so_max _ _ _ _ _ _ _ SO) as Hm. pose proof (so_asrt _ _ _ _ _ _ _ SO) as Ha.
  set (a' := mkAo (ao_prio a) (queue_init qs n (Some (ao_prio a)))).
  set (s1 := set_ao s (upd (k_ao s) o a')).
  assert (Ho1 : nth_error (k_ao s1) o = Some a') by (apply nth_upd_eq; exact Hlt).
  assert (E0 : forall r, exec (pseq (sma_register c o) (fun _ => User (UInit o) (Ret 0))) s1 = r ->
    exec (sma_activate c o qs n) s = match r with Ok (s'', l', v) => Ok (s'', [KInit o] ++ l', v) | Fault e => Fault e end).
  { intros r <-. unfold sma_activate. cbn [exec]. rewrite Ha. destruct (Nat.eqb_spec n 0); [lia|]. cbn [negb rassert orb bind].
    rewrite (proj2 (rd_ok _ _ _) Ho). cbn [bind]. rewrite wr_lt by exact Hlt. cbn [bind]. reflexivity. }
  assert (E1 : forall x, nth_error (k_sp s) (N.to_nat (ao_prio a)) = Some x ->
    exec (pseq (sma_register c o) (fun _ => User (UInit o) (Ret 0))) s1 =
    match x with None => Ok (set_sp s1 (upd (k_sp s) (N.to_nat (ao_prio a)) (Some o)), [KReg o], 0) | Some _ => Fault (FAssert 99) end).
  { intros y Hy. cbn [sma_register pseq exec]. rewrite (proj2 (rd_ok _ _ _) Ho1). cbn [bind ao_prio a'].
    destruct (N.leb_spec (ao_prio a) (max_sma (q_rg (k_qc c)) - 1)); [|lia].
    change (k_sp s1) with (k_sp s). rewrite (proj2 (rd_ok _ _ _) Hy). cbn [bind]. rewrite Ha.
    destruct y; cbn [rassert orb bind pseq exec]; [reflexivity|].
    change (k_sp s1) with (k_sp s). rewrite wr_lt by (eapply nth_some_lt; eauto). reflexivity. }
  split.
  - intros Hs. rewrite (E0 _ (E1 _ Hs)). eexists. split; [reflexivity|].
    cbn [k_rg k_mem k_ch set_sp set_ao s1]. fold s1.
    assert (Hlen : (N.to_nat (ao_prio a) < length (k_sp s))%nat) by (eapply nth_some_lt; eauto).
    split; [|split; [|split; [|split; [|auto]]]].
    + unfold registered. cbn [k_ao set_sp k_sp]. rewrite Ho1. cbn [ao_prio a']. rewrite nth_upd_eq by exact Hlen. apply Nat.eqb_refl.
    + intros o' Hne. unfold registered. cbn [k_ao k_sp set_sp s1 set_ao]. rewrite nth_upd_ne by auto.
      destruct (nth_error (k_ao s) o') as [b|]; [|reflexivity]. rewrite nth_upd. destruct (Nat.eqb_spec (N.to_nat (ao_prio a)) (N.to_nat (ao_prio b))) as [E|E]; cbn [andb].
      * destruct (Nat.ltb_spec (N.to_nat (ao_prio a)) (length (k_sp s))); [|lia]. rewrite <- E, Hs. apply Nat.eqb_neq. auto.
      * reflexivity.
    + intros o'. unfold ao_view. cbn [k_ao set_sp s1 set_ao]. destruct (Nat.eqb_spec o' o) as [->|Hne].
      * change (upd (k_ao s) o a') with (k_ao s1). rewrite Ho1. apply queue_init_view.
      * now rewrite nth_upd_ne by auto.
    + exists a'. split; [exact Ho1|]. unfold ao_view. cbn [k_ao set_sp]. rewrite Ho1. cbn [ao_q a']. rewrite queue_init_view. cbn. lia.
  - intros (o' & Hs). rewrite (E0 _ (E1 _ Hs)). reflexivity.
Qed.
End P.
