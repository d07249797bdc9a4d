(** Proofs: the queues of the kernel, the registry and the ready set. *)
From Verif Require Import Base L_Base M_RdyGrp S_RdyGrp L_RdyGrp M_Queue S_Queue L_Queue M_MemPool M_Kernel S_Kernel.
Local Open Scope nat_scope.

Lemma widx_mod n x : x < 2 * n -> widx n x = x mod n.
Proof.
  intros H. unfold widx. destruct (Nat.ltb_spec x n).
  - now rewrite Nat.mod_small.
  - replace x with (x - n + 1 * n) at 2 by lia. rewrite Nat.mod_add by lia.
    rewrite Nat.mod_small; lia.
Qed.

Lemma q_view_length q : length (q_view q) = q_qty q.
Proof. unfold q_view. now rewrite map_length, seq_length. Qed.

Lemma q_view_rel sto (q : queue N) l : q_rel sto q (map Some l) -> q_view q = l.
Proof.
  intros [Hpos Hlen Hfit Hqty Hcap Hout Hin Hitem _]. rewrite map_length in *.
  apply list_eq_nth. intros i. unfold q_view. rewrite nth_error_map.
  destruct (Nat.lt_ge_cases i (length l)) as [Hi|Hi].
  - rewrite (nth_error_nth' (seq 0 (q_qty q)) 0) by (rewrite seq_length; lia).
    rewrite seq_nth by lia. cbn [option_map]. rewrite Nat.add_0_l.
    destruct (nth_error l i) as [e|] eqn:E; [|apply nth_error_None in E; lia].
    assert (E2 : nth_error (map Some l) i = Some (Some e)) by now rewrite nth_error_map, E.
    specialize (Hitem i _ E2). rewrite widx_mod in Hitem by lia. now rewrite Hitem.
  - replace (nth_error (seq 0 (q_qty q)) i) with (@None nat).
    + symmetry. now apply nth_error_None.
    + symmetry. apply nth_error_None. rewrite seq_length. lia.
Qed.

(** A working queue. *)
Definition q_good (q : queue N) : Prop := exists sto, q_rel sto q (map Some (q_view q)).
Lemma q_good_rel sto q l : q_rel sto q (map Some l) -> q_good q.
Proof. intros H. exists sto. now rewrite (q_view_rel _ _ _ H). Qed.

Lemma q_view_nil q : q_qty q = 0 <-> q_view q = [].
Proof.
  rewrite <- q_view_length. split; [|now intros ->]. destruct (q_view q); [reflexivity|discriminate].
Qed.

(** Counting over updated lists. *)
Lemma count_concat_upd {A} (f : A -> list N) l i x y e :
  nth_error l i = Some x ->
  count_occ N.eq_dec (concat (map f (upd l i y))) e + count_occ N.eq_dec (f x) e =
  count_occ N.eq_dec (concat (map f l)) e + count_occ N.eq_dec (f y) e.
Proof.
  revert i. induction l as [|h t IH]; intros [|i] H; try discriminate; simpl in H |- *.
  - injection H as ->. rewrite !count_occ_app. lia.
  - rewrite !count_occ_app. specialize (IH i H). lia.
Qed.

Lemma map_upd_same {A B} (f : A -> B) l i x y :
  nth_error l i = Some x -> f y = f x -> map f (upd l i y) = map f l.
Proof.
  revert i. induction l as [|h t IH]; intros [|i] H E; try discriminate; simpl in *.
  - injection H as ->. now rewrite E.
  - now rewrite IH.
Qed.

Section KQ.
Context (c : kcfg) (prios : list N) (nd : nat).
Context (Hmax : (1 <= max_sma (q_rg (k_qc c)) <= 64)%N) (Hasrt : q_asrt (k_qc c) = true).
Notation rgc := (q_rg (k_qc c)).

Definition reg (sp : list (option nat)) (a : ao) (o : nat) : Prop :=
  nth_error sp (N.to_nat (ao_prio a)) = Some (Some o).

Definition rdy (ao : list ao) (sp : list (option nat)) (p : N) : bool :=
  match nth_error sp (N.to_nat p) with
  | Some (Some o) => match nth_error ao o with Some a => negb (q_qty (ao_q a) =? 0) | None => false end
  | _ => false
  end.

Record KQ (ao : list ao) (dq : list (queue N)) (sp : list (option nat)) (rg : rdygrp) (ch : list rdygrp) : Prop := {
  kq_prios : map ao_prio ao = prios;
  kq_splen : length sp = N.to_nat (max_sma rgc);
  kq_sp : forall p o, nth_error sp p = Some (Some o) ->
      exists a, nth_error ao o = Some a /\ N.to_nat (ao_prio a) = p;
  kq_sma : forall o a, nth_error ao o = Some a -> q_sma (ao_q a) = Some (ao_prio a);
  kq_on : forall o a, nth_error ao o = Some a -> reg sp a o -> q_good (ao_q a);
  kq_off : forall o a, nth_error ao o = Some a -> ~ reg sp a o -> q_qty (ao_q a) = 0;
  kq_dq : forall d q, nth_error dq d = Some q -> q_sma q = None /\ q_good q;
  kq_nd : length dq = nd;
  kq_rg : rg_rel rgc rg (rdy ao sp);
  kq_chlen : length ch = k_maxch c;
  kq_ch : forall i g, nth_error ch i = Some g -> exists CS, rg_rel rgc g CS }.

Lemma reg_lt ao dq sp rg ch o a : KQ ao dq sp rg ch -> reg sp a o -> (ao_prio a < max_sma rgc)%N.
Proof. intros H Hr. apply nth_some_lt in Hr. rewrite (kq_splen _ _ _ _ _ H) in Hr. lia. Qed.

(** Replacing the queue of a registered active object. *)
Lemma KQ_upd ao dq sp rg ch o a q' rg' :
  KQ ao dq sp rg ch -> nth_error ao o = Some a -> reg sp a o ->
  q_good q' -> q_sma q' = q_sma (ao_q a) ->
  rg_rel rgc rg' (fun p => if (p =? ao_prio a)%N then negb (q_qty q' =? 0) else rdy ao sp p) ->
  KQ (upd ao o (mkAo (ao_prio a) q')) dq sp rg' ch.
Proof.
  intros H Ho Hr Hg Hs Hrg. destruct H. constructor; auto.
  - rewrite <- kq_prios0. eapply map_upd_same; [exact Ho|reflexivity].
  - intros p o' Hp. destruct (kq_sp0 p o' Hp) as (a' & Ha' & E).
    destruct (Nat.eq_dec o o') as [<-|Hne].
    + assert (a' = a) by congruence. subst a'. exists (mkAo (ao_prio a) q').
      split; [apply nth_upd_eq; eapply nth_some_lt; eauto|exact E].
    + exists a'. rewrite nth_upd_ne by auto. auto.
  - intros o' a' Ha'. destruct (Nat.eq_dec o o') as [<-|Hne].
    + rewrite nth_upd_eq in Ha' by (eapply nth_some_lt; eauto). injection Ha' as <-.
      cbn [ao_q ao_prio]. rewrite Hs. eauto.
    + rewrite nth_upd_ne in Ha' by auto. eauto.
  - intros o' a' Ha' Hr'. destruct (Nat.eq_dec o o') as [<-|Hne].
    + rewrite nth_upd_eq in Ha' by (eapply nth_some_lt; eauto). injection Ha' as <-. exact Hg.
    + rewrite nth_upd_ne in Ha' by auto. eauto.
  - intros o' a' Ha' Hr'. destruct (Nat.eq_dec o o') as [<-|Hne].
    + rewrite nth_upd_eq in Ha' by (eapply nth_some_lt; eauto). injection Ha' as <-.
      now destruct Hr'.
    + rewrite nth_upd_ne in Ha' by auto. eauto.
  - eapply rg_rel_ext; [|exact Hrg]. intros p. unfold rdy.
    destruct (N.eqb_spec p (ao_prio a)) as [->|Hp].
    + unfold reg in Hr. rewrite Hr. now rewrite nth_upd_eq by (eapply nth_some_lt; eauto).
    + destruct (nth_error sp (N.to_nat p)) as [[o'|]|] eqn:Ep; try reflexivity.
      destruct (kq_sp0 _ _ Ep) as (a' & Ha' & E).
      rewrite nth_upd_ne; [reflexivity|]. intros <-. apply Hp.
      assert (a' = a) by congruence. subst a'. lia.
Qed.

Lemma KQ_updq ao dq sp rg ch d q q' :
  KQ ao dq sp rg ch -> nth_error dq d = Some q -> q_good q' -> q_sma q' = q_sma q ->
  KQ ao (upd dq d q') sp rg ch.
Proof.
  intros H Hd Hg Hs. destruct H. constructor; auto.
  - intros d' x Hx. destruct (Nat.eq_dec d d') as [<-|Hne].
    + rewrite nth_upd_eq in Hx by (eapply nth_some_lt; eauto). injection Hx as <-.
      rewrite Hs. split; [|exact Hg]. eapply kq_dq0; eauto.
    + rewrite nth_upd_ne in Hx by auto. eauto.
  - now rewrite length_upd.
Qed.

Definition put (lifo : bool) (q : queue N) (g : rdygrp) (e : N) : res (queue N * rdygrp) :=
  if lifo then queue_put_lifo (k_qc c) q g (Some e) else queue_put_fifo (k_qc c) q g (Some e).
Definition put_view (lifo : bool) (l : list N) (e : N) : list N := if lifo then e :: l else l ++ [e].

Lemma put_view_len lifo l e : length (put_view lifo l e) = S (length l).
Proof. clear Hmax Hasrt. destruct lifo; simpl; [reflexivity|]. rewrite app_length. simpl. lia. Qed.
Lemma put_view_in lifo l e x : In x (put_view lifo l e) <-> x = e \/ In x l.
Proof. clear Hmax Hasrt.
  destruct lifo; simpl; [|rewrite in_app_iff; simpl]; intuition auto.
Qed.
Lemma put_view_count lifo l e x :
  count_occ N.eq_dec (put_view lifo l e) x = count_occ N.eq_dec l x + (if N.eq_dec e x then 1 else 0).
Proof. clear Hmax Hasrt.
  destruct lifo; simpl.
  - destruct (N.eq_dec e x); lia.
  - rewrite count_occ_app. simpl. destruct (N.eq_dec e x); lia.
Qed.

Lemma put_rel sto q g l RS lifo e :
  q_rel sto q (map Some l) -> rg_rel rgc g RS -> sma_ok (k_qc c) (q_sma q) ->
  (length l = q_nelems q /\ put lifo q g e = Fault (FAssert (if lifo then 265 else 223))) \/
  (length l < q_nelems q /\ exists q' g', put lifo q g e = Ok (q', g') /\
     q_rel sto q' (map Some (put_view lifo l e)) /\
     rg_rel rgc g' (own_ready (q_sma q) RS true) /\ q_sma q' = q_sma q /\ q_nelems q' = q_nelems q).
Proof.
  intros HQ HR Hs. pose proof (qr_cap _ _ _ HQ) as Hcap. rewrite map_length in Hcap.
  destruct (Nat.eq_dec (length l) (q_nelems q)) as [E|E].
  - left. split; [exact E|]. unfold put.
    destruct (queue_put_full (k_qc c) sto q g _ (Some e) HQ) as [Hf _].
    + now rewrite map_length.
    + discriminate.
    + destruct (Hf Hasrt) as [E1 E2]. now destruct lifo.
  - right. split; [lia|]. destruct lifo.
    + destruct (queue_put_lifo_rel (k_qc c) sto q g (map Some l) RS (Some e) Hmax HQ HR Hs)
        as (q' & g' & E1 & HQ' & HR' & En & Es & _); [discriminate|rewrite map_length; lia|].
      exists q', g'. auto 10.
    + destruct (queue_put_fifo_rel (k_qc c) sto q g (map Some l) RS (Some e) Hmax HQ HR Hs)
        as (q' & g' & E1 & HQ' & HR' & En & Es & _); [discriminate|rewrite map_length; lia|].
      exists q', g'. rewrite <- map_app in HQ' || idtac.
      replace (map Some l ++ [Some e]) with (map Some (put_view false l e)) in HQ'
        by (simpl; now rewrite map_app).
      auto 10.
Qed.

(** Post. *)
Lemma KQ_post ao dq sp rg ch lifo o a e :
  KQ ao dq sp rg ch -> nth_error ao o = Some a -> reg sp a o ->
  (length (q_view (ao_q a)) = q_nelems (ao_q a) /\
     put lifo (ao_q a) rg e = Fault (FAssert (if lifo then 265 else 223))) \/
  (length (q_view (ao_q a)) < q_nelems (ao_q a) /\
   exists q' g', put lifo (ao_q a) rg e = Ok (q', g') /\
     q_view q' = put_view lifo (q_view (ao_q a)) e /\ q_nelems q' = q_nelems (ao_q a) /\
     KQ (upd ao o (mkAo (ao_prio a) q')) dq sp g' ch).
Proof.
  intros H Ho Hr. destruct (kq_on _ _ _ _ _ H o a Ho Hr) as [sto HQ].
  pose proof (kq_sma _ _ _ _ _ H o a Ho) as Hs. pose proof (reg_lt _ _ _ _ _ _ _ H Hr) as Hlt.
  destruct (put_rel sto (ao_q a) rg _ _ lifo e HQ (kq_rg _ _ _ _ _ H)) as [Hf|(Hlen & q' & g' & E1 & HQ' & HR' & Es & En)].
  - unfold sma_ok. now rewrite Hs.
  - now left.
  - right. split; [exact Hlen|]. exists q', g'. split; [exact E1|].
    split; [eapply q_view_rel; exact HQ'|]. split; [exact En|].
    eapply KQ_upd; eauto.
    + eapply q_good_rel; exact HQ'.
    + eapply rg_rel_ext; [|exact HR']. intros p. rewrite Hs. cbn [own_ready].
      destruct (p =? ao_prio a)%N; [|reflexivity].
      pose proof (qr_qty _ _ _ HQ') as Hq. rewrite map_length, put_view_len in Hq. rewrite Hq. reflexivity.
Qed.

(** Get by the scheduler. *)
Lemma KQ_get ao dq sp rg ch o a e l :
  KQ ao dq sp rg ch -> nth_error ao o = Some a -> reg sp a o -> q_view (ao_q a) = e :: l ->
  exists q' g', queue_get (k_qc c) (ao_q a) rg = Ok (q', g', Some e) /\ q_view q' = l /\
     q_nelems q' = q_nelems (ao_q a) /\
     KQ (upd ao o (mkAo (ao_prio a) q')) dq sp g' ch.
Proof.
  intros H Ho Hr Hv. destruct (kq_on _ _ _ _ _ H o a Ho Hr) as [sto HQ]. rewrite Hv in HQ. simpl in HQ.
  pose proof (kq_sma _ _ _ _ _ H o a Ho) as Hs. pose proof (reg_lt _ _ _ _ _ _ _ H Hr) as Hlt.
  destruct (queue_get_some (k_qc c) sto (ao_q a) rg (Some e) (map Some l) _ Hmax HQ (kq_rg _ _ _ _ _ H))
    as (q' & g' & E1 & HQ' & HR' & En & Es & _).
  { unfold sma_ok. now rewrite Hs. }
  exists q', g'. split; [exact E1|]. split; [eapply q_view_rel; exact HQ'|]. split; [exact En|].
  eapply KQ_upd; eauto.
  - eapply q_good_rel; exact HQ'.
  - eapply rg_rel_ext; [|exact HR']. intros p. pose proof (qr_qty _ _ _ HQ') as Hq.
    rewrite map_length in Hq. rewrite Hq. destruct l as [|x l]; cbn [map length Nat.eqb negb].
    + rewrite Hs. cbn [own_ready]. reflexivity.
    + destruct (N.eqb_spec p (ao_prio a)) as [->|_]; [|reflexivity].
      unfold rdy. unfold reg in Hr. rewrite Hr, Ho. rewrite <- q_view_length, Hv. reflexivity.
Qed.

(** Put in a deferral queue. *)
Lemma KQ_defer ao dq sp rg ch d q e :
  KQ ao dq sp rg ch -> nth_error dq d = Some q ->
  (length (q_view q) = q_nelems q /\
     queue_put_fifo (k_qc c) q rg (Some e) = Fault (FAssert 223)) \/
  (length (q_view q) < q_nelems q /\
   exists q' g', queue_put_fifo (k_qc c) q rg (Some e) = Ok (q', g') /\ q_view q' = q_view q ++ [e] /\
     q_nelems q' = q_nelems q /\ KQ ao (upd dq d q') sp g' ch).
Proof.
  intros H Hd. destruct (kq_dq _ _ _ _ _ H d q Hd) as [Hs [sto HQ]].
  destruct (put_rel sto q rg _ _ false e HQ (kq_rg _ _ _ _ _ H)) as [Hf|(Hlen & q' & g' & E1 & HQ' & HR' & Es & En)].
  - unfold sma_ok. now rewrite Hs.
  - now left.
  - right. split; [exact Hlen|]. exists q', g'. split; [exact E1|].
    split; [eapply q_view_rel; exact HQ'|]. split; [exact En|].
    assert (K : KQ ao dq sp g' ch).
    { rewrite Hs in HR'. cbn [own_ready] in HR'. destruct H. constructor; auto. }
    eapply KQ_updq; eauto. eapply q_good_rel; exact HQ'.
Qed.

(** Take from a deferral queue. *)
Lemma KQ_undefer ao dq sp rg ch d q :
  KQ ao dq sp rg ch -> nth_error dq d = Some q ->
  (q_view q = [] /\ exists q', queue_get (k_qc c) q rg = Ok (q', rg, None) /\ q_view q' = [] /\
     q_nelems q' = q_nelems q /\ KQ ao (upd dq d q') sp rg ch) \/
  (exists e l q', q_view q = e :: l /\ queue_get (k_qc c) q rg = Ok (q', rg, Some e) /\ q_view q' = l /\
     q_nelems q' = q_nelems q /\ KQ ao (upd dq d q') sp rg ch).
Proof.
  intros H Hd. destruct (kq_dq _ _ _ _ _ H d q Hd) as [Hs [sto HQ]].
  destruct (q_view q) as [|e l] eqn:Hv.
  - left. split; [reflexivity|]. destruct (queue_get_none (k_qc c) sto q rg HQ) as [E1 _].
    eexists. split; [exact (E1 Hs)|].
    assert (HQ' := set_info_rel sto q (map Some []) (iu_empty (q_info q)) HQ).
    split; [eapply q_view_rel; exact HQ'|]. split; [reflexivity|].
    eapply KQ_updq; [exact H|exact Hd|eapply q_good_rel; exact HQ'|reflexivity].
  - right. simpl in HQ. unfold queue_get. rewrite Hs. rewrite (qr_qty _ _ _ HQ). cbn [length Nat.eqb].
    destruct (queue_take_rel (k_qc c) sto q rg (Some e) (map Some l) _ Hmax HQ (kq_rg _ _ _ _ _ H))
      as (q' & g' & E1 & HQ' & HR' & En & Es & _).
    { unfold sma_ok. now rewrite Hs. }
    assert (g' = rg).
    { unfold queue_take in E1. destruct (rd (q_sto q) (q_pout q)); [|discriminate]. cbn [bind] in E1.
      rewrite Hs in E1. injection E1 as _ <- _. reflexivity. }
    subst g'. exists e, l, q'. split; [reflexivity|]. split; [exact E1|].
    split; [eapply q_view_rel; exact HQ'|]. split; [exact En|].
    eapply KQ_updq; eauto. eapply q_good_rel; exact HQ'.
Qed.

(** The scheduler's choice. *)
Lemma KQ_idle ao dq sp rg ch : KQ ao dq sp rg ch -> rg_isReady rg = false ->
  forall o a, nth_error ao o = Some a -> q_view (ao_q a) = [].
Proof.
  intros H Hn o a Ho. apply q_view_nil.
  destruct (Nat.eq_dec (q_qty (ao_q a)) 0) as [E|E]; [exact E|exfalso].
  assert (Hr : reg sp a o).
  { unfold reg. destruct (nth_error sp (N.to_nat (ao_prio a))) as [[o'|]|] eqn:Es.
    - destruct (Nat.eq_dec o o') as [->|Hne]; [reflexivity|].
      exfalso. apply E. eapply kq_off; [exact H|exact Ho|]. unfold reg. rewrite Es. congruence.
    - exfalso. apply E. eapply kq_off; [exact H|exact Ho|]. unfold reg. rewrite Es. discriminate.
    - exfalso. apply E. eapply kq_off; [exact H|exact Ho|]. unfold reg. rewrite Es. discriminate. }
  assert (Hready : rg_isReady rg = true).
  { apply (rg_isReady_rel _ _ _ Hmax (kq_rg _ _ _ _ _ H)). exists (ao_prio a).
    unfold rdy. unfold reg in Hr. rewrite Hr, Ho. destruct (q_qty (ao_q a)); [congruence|reflexivity]. }
  congruence.
Qed.

Lemma KQ_highest ao dq sp rg ch : KQ ao dq sp rg ch -> rg_isReady rg = true ->
  exists p o a, rg_findHighest rg = Ok p /\ rd sp (N.to_nat p) = Ok (Some o) /\
    nth_error ao o = Some a /\ ao_prio a = p /\ reg sp a o /\ q_view (ao_q a) <> [] /\
    forall o' a', nth_error ao o' = Some a' -> q_view (ao_q a') <> [] -> (p <= ao_prio a')%N.
Proof.
  intros H Hr. pose proof (kq_rg _ _ _ _ _ H) as HR.
  apply (rg_isReady_rel _ _ _ Hmax HR) in Hr.
  destruct (rg_findHighest_rel _ _ _ Hmax HR Hr) as (p & E1 & Hp & Hleast).
  unfold rdy in Hp. destruct (nth_error sp (N.to_nat p)) as [[o|]|] eqn:Es; try discriminate.
  destruct (nth_error ao o) as [a|] eqn:Ho; [|discriminate].
  destruct (kq_sp _ _ _ _ _ H _ _ Es) as (a' & Ha' & Ea). assert (a' = a) by congruence. subst a'.
  assert (Ep : ao_prio a = p) by lia.
  exists p, o, a. split; [exact E1|]. split; [now apply rd_ok|]. split; [exact Ho|]. split; [exact Ep|].
  split; [unfold reg; now rewrite Ep|].
  split. { intros Hv. apply q_view_nil in Hv. rewrite Hv in Hp. discriminate. }
  intros o' a' Ho' Hv'. destruct (N.le_gt_cases p (ao_prio a')) as [Hle|Hgt]; [exact Hle|exfalso].
  assert (Hf : rdy ao sp (ao_prio a') = false).
  { destruct (rdy ao sp (ao_prio a')) eqn:Ed; [|reflexivity]. apply Hleast in Ed. lia. }
  assert (Hq : q_qty (ao_q a') <> 0) by (intros Hq; apply Hv'; now apply q_view_nil).
  assert (Hr' : reg sp a' o').
  { unfold reg. destruct (nth_error sp (N.to_nat (ao_prio a'))) as [[o2|]|] eqn:Es'.
    - destruct (Nat.eq_dec o' o2) as [->|Hne]; [reflexivity|].
      exfalso. apply Hq. eapply kq_off; [exact H|exact Ho'|]. unfold reg. rewrite Es'. congruence.
    - exfalso. apply Hq. eapply kq_off; [exact H|exact Ho'|]. unfold reg. rewrite Es'. discriminate.
    - exfalso. apply Hq. eapply kq_off; [exact H|exact Ho'|]. unfold reg. rewrite Es'. discriminate. }
  unfold rdy in Hf. unfold reg in Hr'. rewrite Hr', Ho' in Hf.
  destruct (q_qty (ao_q a')); [congruence|discriminate].
Qed.

(** Initialising the queue of an active object that is not registered. *)
Lemma KQ_init ao dq sp rg ch o a qs n :
  KQ ao dq sp rg ch -> nth_error ao o = Some a -> nth_error sp (N.to_nat (ao_prio a)) = Some None ->
  KQ (upd ao o (mkAo (ao_prio a) (queue_init qs n (Some (ao_prio a))))) dq sp rg ch.
Proof.
  intros H Ho Hs.
  set (a' := mkAo (ao_prio a) (queue_init qs n (Some (ao_prio a)))).
  assert (Hno : forall p, nth_error sp p = Some (Some o) -> False).
  { intros p Hp. destruct (kq_sp _ _ _ _ _ H _ _ Hp) as (x & Hx & E). assert (x = a) by congruence. subst x.
    rewrite <- E in Hp. congruence. }
  destruct H. constructor; auto.
  - rewrite <- kq_prios0. eapply map_upd_same; [exact Ho|reflexivity].
  - intros p o' Hp. destruct (kq_sp0 p o' Hp) as (x & Hx & E).
    destruct (Nat.eq_dec o o') as [<-|Hne]; [exfalso; eauto|].
    exists x. rewrite nth_upd_ne by auto. auto.
  - intros o' x Hx. destruct (Nat.eq_dec o o') as [<-|Hne].
    + rewrite nth_upd_eq in Hx by (eapply nth_some_lt; eauto). injection Hx as <-. reflexivity.
    + rewrite nth_upd_ne in Hx by auto. eauto.
  - intros o' x Hx Hr'. destruct (Nat.eq_dec o o') as [<-|Hne]; [exfalso; eauto|].
    rewrite nth_upd_ne in Hx by auto. eauto.
  - intros o' x Hx Hr'. destruct (Nat.eq_dec o o') as [<-|Hne].
    + rewrite nth_upd_eq in Hx by (eapply nth_some_lt; eauto). injection Hx as <-. reflexivity.
    + rewrite nth_upd_ne in Hx by auto. eauto.
  - eapply rg_rel_ext; [|exact kq_rg0]. intros p. unfold rdy.
    destruct (nth_error sp (N.to_nat p)) as [[o'|]|] eqn:Ep; try reflexivity.
    rewrite nth_upd_ne; [reflexivity|]. intros <-. eauto.
Qed.

(** Registering it. *)
Lemma KQ_register ao dq sp rg ch o a :
  KQ ao dq sp rg ch -> nth_error ao o = Some a -> nth_error sp (N.to_nat (ao_prio a)) = Some None ->
  q_good (ao_q a) ->
  KQ ao dq (upd sp (N.to_nat (ao_prio a)) (Some o)) rg ch.
Proof.
  intros H Ho Hs Hg.
  assert (Hq : q_qty (ao_q a) = 0).
  { eapply kq_off; [exact H|exact Ho|]. unfold reg. rewrite Hs. discriminate. }
  assert (Hl : N.to_nat (ao_prio a) < length sp) by (eapply nth_some_lt; eauto).
  destruct H. constructor; auto.
  - now rewrite length_upd.
  - intros p o' Hp. rewrite nth_upd in Hp.
    destruct (Nat.eqb_spec (N.to_nat (ao_prio a)) p) as [<-|Hne]; simpl in Hp.
    + replace (N.to_nat (ao_prio a) <? length sp) with true in Hp by lia. injection Hp as <-. eauto.
    + eauto.
  - intros o' x Hx Hr'. unfold reg in Hr'. rewrite nth_upd in Hr'.
    destruct (Nat.eqb_spec (N.to_nat (ao_prio a)) (N.to_nat (ao_prio x))) as [E|Hne]; simpl in Hr'.
    + replace (N.to_nat (ao_prio a) <? length sp) with true in Hr' by lia. injection Hr' as <-.
      assert (x = a) by congruence. now subst x.
    + eauto.
  - intros o' x Hx Hr'. unfold reg in Hr'. rewrite nth_upd in Hr'.
    destruct (Nat.eqb_spec (N.to_nat (ao_prio a)) (N.to_nat (ao_prio x))) as [E|Hne]; simpl in Hr'.
    + eapply kq_off0; [exact Hx|]. unfold reg. rewrite <- E, Hs. discriminate.
    + eapply kq_off0; [exact Hx|exact Hr'].
  - eapply rg_rel_ext; [|exact kq_rg0]. intros p. unfold rdy. rewrite nth_upd.
    destruct (Nat.eqb_spec (N.to_nat (ao_prio a)) (N.to_nat p)) as [E|Hne]; simpl; [|reflexivity].
    replace (N.to_nat (ao_prio a) <? length sp) with true by lia. rewrite <- E, Hs, Ho, Hq. reflexivity.
Qed.

(** Taking an object with an empty queue out of the registry. *)
Lemma KQ_unregister ao dq sp rg ch o a :
  KQ ao dq sp rg ch -> nth_error ao o = Some a -> reg sp a o -> q_qty (ao_q a) = 0 ->
  KQ ao dq (upd sp (N.to_nat (ao_prio a)) None) rg ch.
Proof.
  intros H Ho Hs Hq.
  assert (Hl : N.to_nat (ao_prio a) < length sp) by (eapply nth_some_lt; exact Hs).
  destruct H. constructor; auto.
  - now rewrite length_upd.
  - intros p o' Hp. rewrite nth_upd in Hp.
    destruct (Nat.eqb_spec (N.to_nat (ao_prio a)) p) as [<-|Hne]; simpl in Hp.
    + replace (N.to_nat (ao_prio a) <? length sp) with true in Hp by lia. discriminate.
    + eauto.
  - intros o' x Hx Hr'. unfold reg in Hr'. rewrite nth_upd in Hr'.
    destruct (Nat.eqb_spec (N.to_nat (ao_prio a)) (N.to_nat (ao_prio x))) as [E|Hne]; simpl in Hr'.
    + replace (N.to_nat (ao_prio a) <? length sp) with true in Hr' by lia. discriminate.
    + eauto.
  - intros o' x Hx Hr'. destruct (Nat.eq_dec o' o) as [->|Hno].
    + assert (x = a) by congruence. now subst x.
    + eapply kq_off0; [exact Hx|]. intros Hr. apply Hr'. unfold reg in *. rewrite nth_upd.
      destruct (Nat.eqb_spec (N.to_nat (ao_prio a)) (N.to_nat (ao_prio x))) as [E|Hne]; simpl; [|exact Hr].
      exfalso. rewrite <- E, Hs in Hr. congruence.
  - eapply rg_rel_ext; [|exact kq_rg0]. intros p. unfold rdy. rewrite nth_upd.
    destruct (Nat.eqb_spec (N.to_nat (ao_prio a)) (N.to_nat p)) as [E|Hne]; simpl; [|reflexivity].
    replace (N.to_nat (ao_prio a) <? length sp) with true by lia. unfold reg in Hs. rewrite <- E, Hs, Ho, Hq. reflexivity.
Qed.

Lemma KQ_ch ao dq sp rg ch i g CS :
  KQ ao dq sp rg ch -> rg_rel rgc g CS -> KQ ao dq sp rg (upd ch i g).
Proof.
  intros H Hg. destruct H. constructor; auto.
  - now rewrite length_upd.
  - intros j x Hx. rewrite nth_upd in Hx. destruct ((i =? j) && (i <? length ch)).
    + injection Hx as <-. eauto.
    + eauto.
Qed.

(** What interrupts can do to queues and registry. *)
Definition grows (ao ao' : list ao) (dq dq' : list (queue N)) (sp sp' : list (option nat)) : Prop :=
  sp' = sp /\
  (forall o a, nth_error ao o = Some a -> exists a', nth_error ao' o = Some a' /\
     ao_prio a' = ao_prio a /\ incl (q_view (ao_q a)) (q_view (ao_q a')) /\ (~ reg sp a o -> a' = a)) /\
  (forall d q, nth_error dq d = Some q -> exists q', nth_error dq' d = Some q' /\ incl (q_view q) (q_view q')).

Lemma grows_refl ao dq sp : grows ao ao dq dq sp sp.
Proof.
  split; [reflexivity|]. split.
  - intros o a Ho. exists a. repeat split; auto. apply incl_refl.
  - intros d q Hd. exists q. split; auto. apply incl_refl.
Qed.

Lemma grows_trans ao1 ao2 ao3 dq1 dq2 dq3 sp1 sp2 sp3 :
  grows ao1 ao2 dq1 dq2 sp1 sp2 -> grows ao2 ao3 dq2 dq3 sp2 sp3 -> grows ao1 ao3 dq1 dq3 sp1 sp3.
Proof.
  intros (-> & A1 & D1) (-> & A2 & D2). split; [reflexivity|]. split.
  - intros o a Ho. destruct (A1 o a Ho) as (a1 & Ho1 & P1 & I1 & R1).
    destruct (A2 o a1 Ho1) as (a2 & Ho2 & P2 & I2 & R2). exists a2. split; [exact Ho2|].
    split; [congruence|]. split; [eapply incl_tran; eauto|].
    intros Hr. specialize (R1 Hr). subst a1. apply R2. exact Hr.
  - intros d q Hd. destruct (D1 d q Hd) as (q1 & Hd1 & I1). destruct (D2 d q1 Hd1) as (q2 & Hd2 & I2).
    exists q2. split; [exact Hd2|]. eapply incl_tran; eauto.
Qed.

Lemma grows_post ao dq sp o a q' :
  nth_error ao o = Some a -> reg sp a o -> incl (q_view (ao_q a)) (q_view q') ->
  grows ao (upd ao o (mkAo (ao_prio a) q')) dq dq sp sp.
Proof. clear Hmax Hasrt.
  intros Ho Hr Hi. split; [reflexivity|]. split.
  - intros o' x Hx. destruct (Nat.eq_dec o o') as [<-|Hne].
    + assert (x = a) by congruence. subst x. exists (mkAo (ao_prio a) q').
      split; [apply nth_upd_eq; eapply nth_some_lt; eauto|]. split; [reflexivity|]. split; [exact Hi|tauto].
    + exists x. rewrite nth_upd_ne by auto. repeat split; auto. apply incl_refl.
  - intros d q Hd. exists q. split; auto. apply incl_refl.
Qed.

Lemma grows_dq ao dq sp d q q' :
  nth_error dq d = Some q -> incl (q_view q) (q_view q') -> grows ao ao dq (upd dq d q') sp sp.
Proof.
  intros Hd Hi. split; [reflexivity|]. split.
  - intros o a Ho. exists a. repeat split; auto. apply incl_refl.
  - intros d' x Hx. destruct (Nat.eq_dec d d') as [<-|Hne].
    + assert (x = q) by congruence. subst x. exists q'. split; [apply nth_upd_eq; eapply nth_some_lt; eauto|exact Hi].
    + exists x. rewrite nth_upd_ne by auto. split; auto. apply incl_refl.
Qed.
End KQ.

(** References in all queues. *)
Definition refs (s : kst) (e : N) : nat := count_occ N.eq_dec (all_queued s) e.

Lemma refs_ao ao' s o a q' e :
  nth_error (k_ao s) o = Some a -> ao' = upd (k_ao s) o (mkAo (ao_prio a) q') ->
  refs (set_ao s ao') e + count_occ N.eq_dec (q_view (ao_q a)) e =
  refs s e + count_occ N.eq_dec (q_view q') e.
Proof.
  intros Ho ->. unfold refs, all_queued. cbn [k_ao k_dq set_ao]. rewrite !count_occ_app.
  pose proof (count_concat_upd (fun a => q_view (ao_q a)) (k_ao s) o a (mkAo (ao_prio a) q') e Ho) as H.
  cbv beta in H. cbn [ao_q] in H. lia.
Qed.

Lemma refs_dq dq' s d q q' e :
  nth_error (k_dq s) d = Some q -> dq' = upd (k_dq s) d q' ->
  refs (set_dq s dq') e + count_occ N.eq_dec (q_view q) e =
  refs s e + count_occ N.eq_dec (q_view q') e.
Proof.
  intros Hd ->. unfold refs, all_queued. cbn [k_ao k_dq set_dq]. rewrite !count_occ_app.
  pose proof (count_concat_upd q_view (k_dq s) d q q' e Hd). lia.
Qed.

Lemma refs_in s e : 0 < refs s e <-> In e (all_queued s).
Proof. unfold refs. symmetry. apply count_occ_In. Qed.

Lemma in_all_queued s e : In e (all_queued s) <->
  (exists o a, nth_error (k_ao s) o = Some a /\ In e (q_view (ao_q a))) \/
  (exists d q, nth_error (k_dq s) d = Some q /\ In e (q_view q)).
Proof.
  unfold all_queued. rewrite in_app_iff, !in_concat. split; (intros [H|H]; [left|right]).
  - destruct H as (l & Hl & He). apply in_map_iff in Hl. destruct Hl as (a & <- & Ha).
    apply In_nth_error in Ha. destruct Ha as [o Ho]. eauto.
  - destruct H as (l & Hl & He). apply in_map_iff in Hl. destruct Hl as (a & <- & Ha).
    apply In_nth_error in Ha. destruct Ha as [o Ho]. eauto.
  - destruct H as (o & a & Ho & He). exists (q_view (ao_q a)). split; [|exact He].
    apply in_map_iff. exists a. split; [reflexivity|]. eapply nth_error_In; eauto.
  - destruct H as (o & a & Ho & He). exists (q_view a). split; [|exact He].
    apply in_map. eapply nth_error_In; eauto.
Qed.
