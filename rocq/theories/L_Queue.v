(** Proofs: the ring buffer refines the list. *)
From Verif Require Import Base L_Base M_RdyGrp S_RdyGrp L_RdyGrp M_Queue S_Queue.

(** Slot reached by walking [i] steps from [x], for [x < n], [i <= n]. *)
Definition widx (n x : nat) : nat := if x <? n then x else x - n.

Record q_rel {E} (sto0 : list (option E)) (q : queue E) (l : list (option E)) : Prop := {
  qr_pos : 0 < q_nelems q;
  qr_len : length (q_sto q) = length sto0;
  qr_fit : q_nelems q <= length sto0;
  qr_qty : q_qty q = length l;
  qr_cap : length l <= q_nelems q;
  qr_out : q_pout q < q_nelems q;
  qr_in : q_pin q = widx (q_nelems q) (q_pout q + length l);
  qr_item : forall i e, nth_error l i = Some e ->
            nth_error (q_sto q) (widx (q_nelems q) (q_pout q + i)) = Some e;
  qr_frame : forall j, q_nelems q <= j -> nth_error (q_sto q) j = nth_error sto0 j
}.

Lemma widx_lt n x : x < 2 * n -> widx n x < n.
Proof. unfold widx; destruct (Nat.ltb_spec x n); lia. Qed.

Section Q.
Context {E : Type} (c : qcfg).
Implicit Types (q : queue E) (l sto : list (option E)) (g : rdygrp).

Lemma queue_init_rel sto n sma :
  0 < n -> n <= length sto -> q_rel sto (queue_init sto n sma) [].
Proof.
  intros H0 H1. constructor; cbn [queue_init q_sto q_nelems q_pin q_pout q_qty length]; auto; try lia.
  - unfold widx. now replace (0 + 0 <? n) with true by lia.
  - intros i e H. destruct i; discriminate.
Qed.

Lemma set_info_rel sto q l i : q_rel sto q l -> q_rel sto (set_info q i) l.
Proof. intros []; constructor; auto. Qed.

(** Ready bit of the owner, as a set update. *)
Definition own_ready (sma : option N) (RS : N -> bool) (b : bool) : N -> bool :=
  match sma with
  | None => RS
  | Some p => fun x => if (x =? p)%N then b else RS x
  end.


Lemma sync_ready_rel sma g RS :
  (1 <= max_sma (q_rg c) <= 64)%N -> rg_rel (q_rg c) g RS -> sma_ok c sma ->
  exists g', sync_ready c sma g = Ok g' /\ rg_rel (q_rg c) g' (own_ready sma RS true).
Proof.
  intros Hc HR Hs. destruct sma as [p|]; simpl in *.
  - destruct (rg_setReady_rel _ g RS p Hc HR Hs) as [g' [E1 R1]].
    exists g'. split; [assumption|]. eapply rg_rel_ext; [|exact R1].
    intros x. unfold set_add. destruct (N.eqb x p); reflexivity.
  - eauto.
Qed.

Lemma unready_rel p g RS :
  (1 <= max_sma (q_rg c) <= 64)%N -> rg_rel (q_rg c) g RS -> (p < max_sma (q_rg c))%N ->
  exists g', rg_setUnready (q_rg c) g p = Ok g' /\
             rg_rel (q_rg c) g' (own_ready (Some p) RS false).
Proof.
  intros Hc HR Hs.
  destruct (rg_setUnready_rel _ g RS p Hc HR Hs) as [g' [E1 R1]].
  exists g'. split; [assumption|]. eapply rg_rel_ext; [|exact R1].
  intros x. unfold set_del. simpl. destruct (N.eqb x p); reflexivity.
Qed.

Lemma lwm_upd_min nmin n k : lwm_upd nmin n k = Nat.min nmin (n - k).
Proof. unfold lwm_upd. destruct (Nat.ltb_spec (n - k) nmin); lia. Qed.

Definition pe_ok (pe : option E) : bool := match pe with Some _ => true | None => false end.

(** put_fifo with room *)
Lemma queue_put_fifo_rel sto q g l RS pe :
  (1 <= max_sma (q_rg c) <= 64)%N -> q_rel sto q l -> rg_rel (q_rg c) g RS ->
  sma_ok c (q_sma q) -> (q_asrt c = true -> pe <> None) -> length l < q_nelems q ->
  exists q' g', queue_put_fifo c q g pe = Ok (q', g') /\ q_rel sto q' (l ++ [pe]) /\
    rg_rel (q_rg c) g' (own_ready (q_sma q) RS true) /\
    q_nelems q' = q_nelems q /\ q_sma q' = q_sma q /\
    q_nmin q' = Nat.min (q_nmin q) (q_nelems q - length (l ++ [pe])) /\
    q_info q' = iu_put (q_info q).
Proof.
  intros Hc HQ HR Hs Hpe Hroom.
  destruct (sync_ready_rel (q_sma q) g RS Hc HR Hs) as [g' [Eg Rg]].
  pose proof HQ as [Hpos Hlen Hfit Hqty Hcap Hout Hin Hitem Hframe].
  unfold queue_put_fifo.
  replace (rassert (q_asrt c) 221 _) with (@Ok unit tt).
  2:{ destruct pe; [reflexivity|]. unfold rassert.
      destruct (q_asrt c) eqn:Ea; [now destruct Hpe | reflexivity]. }
  cbn [bind]. replace (q_qty q <? q_nelems q) with true by lia.
  rewrite rassert_true. cbn [bind].
  replace (q_nelems q <=? q_qty q) with false by lia.
  assert (Hpin : q_pin q < q_nelems q) by (rewrite Hin; apply widx_lt; lia).
  rewrite wr_lt by lia. cbn [bind]. rewrite Eg. cbn [bind].
  do 2 eexists; split; [reflexivity|].
  rewrite app_length, lwm_upd_min, Hqty. cbn [length].
  replace (S (length l)) with (length l + 1) by lia.
  split; [|now auto 10].
  constructor; cbn [q_sto q_nelems q_pin q_pout q_qty]; rewrite ?length_upd, ?app_length; cbn [length]; try lia.
  - unfold widx in *. destruct (Nat.ltb_spec (q_pout q + length l) (q_nelems q));
      destruct (Nat.eqb_spec (S (q_pin q)) (q_nelems q));
      destruct (Nat.ltb_spec (q_pout q + (length l + 1)) (q_nelems q)); lia.
  - intros i e Hi. destruct (Nat.lt_ge_cases i (length l)) as [Hlt|Hge].
    + rewrite nth_error_app1 in Hi by assumption.
      rewrite nth_upd_ne; [now apply Hitem|].
      rewrite Hin. unfold widx.
      destruct (Nat.ltb_spec (q_pout q + length l) (q_nelems q));
        destruct (Nat.ltb_spec (q_pout q + i) (q_nelems q)); lia.
    + rewrite nth_error_app2 in Hi by assumption.
      destruct (i - length l) as [|k] eqn:Ek; simpl in Hi; [|destruct k; discriminate].
      replace i with (length l) by lia. rewrite <- Hin.
      rewrite nth_upd_eq by lia. assumption.
  - intros j Hj. rewrite nth_upd_ne by lia. now apply Hframe.
Qed.

(** put_lifo with room *)
Lemma queue_put_lifo_rel sto q g l RS pe :
  (1 <= max_sma (q_rg c) <= 64)%N -> q_rel sto q l -> rg_rel (q_rg c) g RS ->
  sma_ok c (q_sma q) -> (q_asrt c = true -> pe <> None) -> length l < q_nelems q ->
  exists q' g', queue_put_lifo c q g pe = Ok (q', g') /\ q_rel sto q' (pe :: l) /\
    rg_rel (q_rg c) g' (own_ready (q_sma q) RS true) /\
    q_nelems q' = q_nelems q /\ q_sma q' = q_sma q /\
    q_nmin q' = Nat.min (q_nmin q) (q_nelems q - length (pe :: l)) /\
    q_info q' = iu_put (q_info q).
Proof.
  intros Hc HQ HR Hs Hpe Hroom.
  destruct (sync_ready_rel (q_sma q) g RS Hc HR Hs) as [g' [Eg Rg]].
  pose proof HQ as [Hpos Hlen Hfit Hqty Hcap Hout Hin Hitem Hframe].
  unfold queue_put_lifo.
  replace (rassert (q_asrt c) 263 _) with (@Ok unit tt).
  2:{ destruct pe; [reflexivity|]. unfold rassert.
      destruct (q_asrt c) eqn:Ea; [now destruct Hpe | reflexivity]. }
  cbn [bind]. replace (q_qty q <? q_nelems q) with true by lia.
  rewrite rassert_true. cbn [bind].
  replace (q_nelems q <=? q_qty q) with false by lia. cbn zeta.
  set (po := (if q_pout q =? 0 then q_nelems q else q_pout q) - 1).
  assert (Hpo : po < q_nelems q) by (unfold po; destruct (Nat.eqb_spec (q_pout q) 0); lia).
  assert (Hnext : widx (q_nelems q) (po + 1) = q_pout q).
  { unfold po, widx. destruct (Nat.eqb_spec (q_pout q) 0);
      match goal with |- context [?a <? ?b] => destruct (Nat.ltb_spec a b) end; lia. }
  assert (Hshift : forall i, i < q_nelems q ->
            widx (q_nelems q) (po + S i) = widx (q_nelems q) (q_pout q + i)).
  { intros i Hi. rewrite <- Hnext. unfold widx.
    destruct (Nat.ltb_spec (po + 1) (q_nelems q)).
    - replace (po + 1 + i) with (po + S i) by lia. reflexivity.
    - destruct (Nat.ltb_spec (po + S i) (q_nelems q));
      match goal with |- context [?a <? ?b] => destruct (Nat.ltb_spec a b) end; lia. }
  rewrite wr_lt by lia. cbn [bind]. rewrite Eg. cbn [bind].
  do 2 eexists; split; [reflexivity|].
  rewrite lwm_upd_min, Hqty.
  split; [|now auto 10].
  constructor; cbn [q_sto q_nelems q_pin q_pout q_qty length]; rewrite ?length_upd; try lia.
  - rewrite Hin. symmetry. apply Hshift. lia.
  - intros [|i] e Hi; simpl in Hi.
    + injection Hi as <-. replace (po + 0) with po by lia.
      unfold widx. replace (po <? q_nelems q) with true by lia.
      apply nth_upd_eq. lia.
    + pose proof (nth_some_lt _ _ _ Hi) as Hil.
      rewrite Hshift by lia. rewrite nth_upd_ne; [now apply Hitem|].
      rewrite <- Hshift by lia. unfold widx.
      destruct (Nat.ltb_spec (po + S i) (q_nelems q)); lia.
  - intros j Hj. rewrite nth_upd_ne by lia. now apply Hframe.
Qed.

(** put on a full queue *)
Lemma queue_put_full sto q g l pe :
  q_rel sto q l -> length l = q_nelems q -> (q_asrt c = true -> pe <> None) ->
  (q_asrt c = true ->
     queue_put_fifo c q g pe = Fault (FAssert 223) /\
     queue_put_lifo c q g pe = Fault (FAssert 265)) /\
  (q_asrt c = false ->
     queue_put_fifo c q g pe = Ok (set_info q (iu_full (q_info q)), g) /\
     queue_put_lifo c q g pe = Ok (set_info q (iu_full (q_info q)), g)).
Proof.
  intros [Hpos Hlen Hfit Hqty Hcap Hout Hin Hitem Hframe] Hfull Hpe.
  unfold queue_put_fifo, queue_put_lifo.
  replace (q_qty q <? q_nelems q) with false by lia.
  replace (q_nelems q <=? q_qty q) with true by lia.
  split; intros Ha; rewrite Ha in *; unfold rassert.
  - destruct pe as [e|]; [split; reflexivity|]. now destruct Hpe.
  - destruct pe as [e|]; split; reflexivity.
Qed.

Lemma queue_put_null q g :
  q_asrt c = true ->
  queue_put_fifo c q g None = Fault (FAssert 221) /\
  queue_put_lifo c q g None = Fault (FAssert 263).
Proof. intros Ha. unfold queue_put_fifo, queue_put_lifo, rassert. rewrite Ha. split; reflexivity. Qed.

(** get with something to get *)
Lemma queue_take_rel sto q g e l RS :
  (1 <= max_sma (q_rg c) <= 64)%N -> q_rel sto q (e :: l) -> rg_rel (q_rg c) g RS ->
  sma_ok c (q_sma q) ->
  exists q' g', queue_take c q g = Ok (q', g', e) /\ q_rel sto q' l /\
    rg_rel (q_rg c) g' (match l with [] => own_ready (q_sma q) RS false | _ => RS end) /\
    q_nelems q' = q_nelems q /\ q_sma q' = q_sma q /\
    q_nmin q' = q_nmin q /\ q_info q' = iu_get (q_info q).
Proof.
  intros Hc [Hpos Hlen Hfit Hqty Hcap Hout Hin Hitem Hframe] HR Hs.
  assert (He : rd (q_sto q) (q_pout q) = Ok e).
  { apply rd_ok. specialize (Hitem 0 e eq_refl). unfold widx in Hitem.
    rewrite Nat.add_0_r in Hitem. now replace (q_pout q <? q_nelems q) with true in Hitem by lia. }
  set (po := if S (q_pout q) =? q_nelems q then 0 else S (q_pout q)).
  set (q' := mkQ (q_sto q) (q_nelems q) (q_pin q) po (length l) (q_nmin q) (q_sma q) (iu_get (q_info q))).
  assert (Hshift : forall i, i < q_nelems q ->
            widx (q_nelems q) (po + i) = widx (q_nelems q) (q_pout q + S i)).
  { intros i Hi. unfold po, widx. destruct (Nat.eqb_spec (S (q_pout q)) (q_nelems q));
      destruct (Nat.ltb_spec (q_pout q + S i) (q_nelems q));
      match goal with |- context [?a <? ?b] => destruct (Nat.ltb_spec a b) end; lia. }
  assert (HQ' : q_rel sto q' l).
  { cbn [length] in *. constructor; cbn [q' q_sto q_nelems q_pin q_pout q_qty]; auto; try lia.
    - unfold po. destruct (Nat.eqb_spec (S (q_pout q)) (q_nelems q)); lia.
    - rewrite Hin. symmetry. apply Hshift. lia.
    - intros i e' Hi. pose proof (nth_some_lt _ _ _ Hi). rewrite Hshift by lia. now apply Hitem. }
  unfold queue_take. rewrite He. cbn [bind]. rewrite Hqty. cbn [length dec_qty].
  fold po. fold q'.
  destruct (q_sma q) as [p|] eqn:Es.
  - destruct l as [|e2 l2]; cbn [length Nat.eqb].
    + destruct (unready_rel p g RS Hc HR Hs) as [g' [Eg Rg]]. rewrite Eg. cbn [bind].
      exists q', g'. auto 10.
    + exists q', g. auto 10.
  - exists q', g. destruct l; auto 10.

Qed.

Lemma queue_get_some sto q g e l RS :
  (1 <= max_sma (q_rg c) <= 64)%N -> q_rel sto q (e :: l) -> rg_rel (q_rg c) g RS ->
  sma_ok c (q_sma q) ->
  exists q' g', queue_get c q g = Ok (q', g', e) /\ q_rel sto q' l /\
    rg_rel (q_rg c) g' (match l with [] => own_ready (q_sma q) RS false | _ => RS end) /\
    q_nelems q' = q_nelems q /\ q_sma q' = q_sma q /\
    q_nmin q' = q_nmin q /\ q_info q' = iu_get (q_info q).
Proof.
  intros Hc HQ HR Hs. destruct (queue_take_rel sto q g e l RS Hc HQ HR Hs) as [q' [g' [E1 R]]].
  exists q', g'. split; [|assumption]. unfold queue_get.
  rewrite (qr_qty _ _ _ HQ). cbn [length Nat.eqb negb]. rewrite rassert_true. cbn [bind].
  destruct (q_sma q); assumption.
Qed.

Lemma queue_get_none sto q g :
  q_rel sto q [] ->
  (q_sma q = None -> queue_get c q g = Ok (set_info q (iu_empty (q_info q)), g, None)) /\
  (q_sma q <> None -> q_asrt c = true -> queue_get c q g = Fault (FAssert 73)).
Proof.
  intros HQ. pose proof (qr_qty _ _ _ HQ) as Hq. unfold queue_get. rewrite Hq. simpl.
  split.
  - intros ->. reflexivity.
  - intros Hn Ha. destruct (q_sma q); [|congruence]. unfold rassert. now rewrite Ha.
Qed.

Lemma queue_deplete_rel sto q g l RS :
  (1 <= max_sma (q_rg c) <= 64)%N -> q_rel sto q l -> rg_rel (q_rg c) g RS ->
  sma_ok c (q_sma q) ->
  exists q' g', queue_deplete c q g = Ok (q', g') /\ q_rel sto q' [] /\
    rg_rel (q_rg c) g' (own_ready (q_sma q) RS false) /\
    q_nelems q' = q_nelems q /\ q_sma q' = q_sma q /\
    q_nmin q' = q_nmin q /\ q_info q' = q_info q.
Proof.
  intros Hc [Hpos Hlen Hfit Hqty Hcap Hout Hin Hitem Hframe] HR Hs.
  set (q' := mkQ (q_sto q) (q_nelems q) 0 0 0 (q_nmin q) (q_sma q) (q_info q)).
  assert (HQ' : q_rel sto q' []).
  { constructor; cbn [q' q_sto q_nelems q_pin q_pout q_qty length]; auto; try lia.
    - unfold widx. now replace (0 + 0 <? q_nelems q) with true by lia.
    - intros [|i] e Hi; discriminate. }
  unfold queue_deplete. fold q'. destruct (q_sma q) as [p|] eqn:Es.
  - destruct (unready_rel p g RS Hc HR Hs) as [g' [Eg Rg]]. rewrite Eg. cbn [bind].
    exists q', g'. auto 10.
  - exists q', g. auto 10.
Qed.

Lemma queue_read_rel sto q l buf :
  q_rel sto q l ->
  queue_read q buf =
  Ok (match l with
      | [] => (set_info q (iu_empty (q_info q)), QUE_EMPTY, buf)
      | _ => (set_info q (iu_read (q_info q)), QUE_OK, buf)
      end).
Proof.
  intros [Hpos Hlen Hfit Hqty Hcap Hout Hin Hitem Hframe]. unfold queue_read.
  rewrite Hqty. destruct l as [|e l]; [reflexivity|]. cbn [length Nat.eqb].
  destruct (rd_lt (q_sto q) (q_pout q) ltac:(lia)) as [x [E1 _]]. rewrite E1. reflexivity.
Qed.

(** * The whole relation and the simulation *)

Definition info_rel (i : qinfo) (a : aq E) : Prop := i = aq_info a.

Record sys_rel (sto : list (option E)) (n : nat) (sma : option N) (S0 : N -> bool)
    (s : queue E * rdygrp) (a : aq E) : Prop := {
  sr_q : q_rel sto (fst s) (a_items a);
  sr_n : q_nelems (fst s) = n;
  sr_sma : q_sma (fst s) = sma;
  sr_low : q_nmin (fst s) = a_low a;
  sr_lown : a_low a <= n - length (a_items a);
  sr_info : q_info (fst s) = aq_info a;
  sr_g : rg_rel (q_rg c) (snd s)
           (own_ready sma S0 (match a_items a with [] => false | _ => true end))
}.

Lemma u16_add x y : u16 (x mod 65536 + y) = ((x + y) mod 65536)%N.
Proof. unfold u16. rewrite N.add_mod_idemp_l; [reflexivity|lia]. Qed.

Lemma own_ready_twice sma S0 b b' x :
  own_ready sma (own_ready sma S0 b) b' x = own_ready sma S0 b' x.
Proof. destruct sma as [p|]; simpl; [destruct (N.eqb x p)|]; reflexivity. Qed.

Ltac info_eq :=
  unfold aq_info, aq_set, iu_put, iu_get, iu_read, iu_empty, iu_full;
  cbn [a_puts a_gets a_reads a_empties a_fulls nputs ngets nreads nempty nfull];
  rewrite ?u16_add, ?N.add_0_r; reflexivity.

Lemma aq_put_cases asrt n line (a : aq E) pe l' :
  (asrt = true /\ pe = None /\ aq_put asrt n line a pe l' = Fault (FAssert line)) \/
  ((asrt = true -> pe <> None) /\
   aq_put asrt n line a pe l' =
     if length (a_items a) <? n then Ok (aq_set n a l' 1 0 0 0 0, OUnit)
     else if asrt then Fault (FAssert (line + 2))
     else Ok (aq_set n a (a_items a) 0 0 0 0 1, OUnit)).
Proof.
  unfold aq_put. destruct pe, asrt; auto; right; split; auto; congruence.
Qed.

Lemma q_step_sim sto n sma S0 s a o :
  (1 <= max_sma (q_rg c) <= 64)%N -> sma_ok c sma ->
  (q_asrt c = true \/ sma = None) ->
  sys_rel sto n sma S0 s a ->
  match aq_step (q_asrt c) (match sma with Some _ => true | None => false end) n a o with
  | Ok (a', r) => exists s', q_step c s o = Ok (s', r) /\ sys_rel sto n sma S0 s' a'
  | Fault f => q_step c s o = Fault f
  end.
Proof.
  intros Hc Hs Ha [HQ Hn Hsma Hlow Hlown Hinfo HG]. destruct s as [q g].
  cbn [fst snd] in *.
  pose proof (qr_cap _ _ _ HQ) as Hcap. rewrite Hn in Hcap.
  assert (Hrefl : forall s', q_rel sto s' (a_items a) -> q_nelems s' = n -> q_sma s' = sma ->
            q_nmin s' = a_low a -> forall i p gg r e f,
            q_info s' = i -> i = aq_info (aq_set n a (a_items a) p gg r e f) ->
            sys_rel sto n sma S0 (s', g) (aq_set n a (a_items a) p gg r e f)).
  { intros s' H1 H2 H3 H4 i p gg r e f H5 H6. constructor; cbn [fst snd aq_set a_items a_low]; auto.
    - rewrite H4. lia.
    - lia.
    - now rewrite H5, H6. }
  destruct o as [pe|pe| | | | | |buf| |]; cbn [aq_step q_step].
  - (* put_fifo *)
    destruct (aq_put_cases (q_asrt c) n 221 a pe (a_items a ++ [pe])) as [[H1 [H2 H3]]|[Hpe H3]]; rewrite H3.
    { subst pe. rewrite (proj1 (queue_put_null q g H1)). reflexivity. }
    destruct (Nat.ltb_spec (length (a_items a)) n) as [Hlt|Hge].
    + destruct (queue_put_fifo_rel sto q g (a_items a) _ pe Hc HQ HG) as
        [q' [g' [E1 [R1 [R2 [E2 [E3 [E4 E5]]]]]]]]; [now rewrite Hsma | assumption | lia |].
      rewrite E1; cbn [bind]; eexists; split; [reflexivity|].
      constructor; cbn [fst snd aq_set a_items a_low]; try congruence; try lia.
      * rewrite E5, Hinfo; info_eq.
      * rewrite Hsma in R2. eapply rg_rel_ext; [|exact R2]. intros x.
        rewrite own_ready_twice. now destruct (a_items a).
    + assert (Hfull : length (a_items a) = q_nelems q) by lia.
      destruct (queue_put_full sto q g _ pe HQ Hfull Hpe) as [F1 F2].
      destruct (q_asrt c) eqn:Easrt.
      * rewrite (proj1 (F1 eq_refl)). reflexivity.
      * rewrite (proj1 (F2 eq_refl)). cbn [bind]. eexists; split; [reflexivity|].
        eapply Hrefl; try reflexivity; auto using set_info_rel.
        cbn [set_info q_info]. rewrite Hinfo. info_eq.
  - (* put_lifo *)
    destruct (aq_put_cases (q_asrt c) n 263 a pe (pe :: a_items a)) as [[H1 [H2 H3]]|[Hpe H3]]; rewrite H3.
    { subst pe. rewrite (proj2 (queue_put_null q g H1)). reflexivity. }
    destruct (Nat.ltb_spec (length (a_items a)) n) as [Hlt|Hge].
    + destruct (queue_put_lifo_rel sto q g (a_items a) _ pe Hc HQ HG) as
        [q' [g' [E1 [R1 [R2 [E2 [E3 [E4 E5]]]]]]]]; [now rewrite Hsma | assumption | lia |].
      rewrite E1; cbn [bind]; eexists; split; [reflexivity|].
      constructor; cbn [fst snd aq_set a_items a_low]; try congruence; try lia.
      * rewrite E5, Hinfo; info_eq.
      * rewrite Hsma in R2. eapply rg_rel_ext; [|exact R2]. intros x.
        rewrite own_ready_twice. now destruct (a_items a).
    + assert (Hfull : length (a_items a) = q_nelems q) by lia.
      destruct (queue_put_full sto q g _ pe HQ Hfull Hpe) as [F1 F2].
      destruct (q_asrt c) eqn:Easrt.
      * rewrite (proj2 (F1 eq_refl)). reflexivity.
      * rewrite (proj2 (F2 eq_refl)). cbn [bind]. eexists; split; [reflexivity|].
        eapply Hrefl; try reflexivity; auto using set_info_rel.
        cbn [set_info q_info]. rewrite Hinfo. info_eq.
  - (* get *)
    destruct (a_items a) as [|e l] eqn:El.
    + destruct (queue_get_none sto q g HQ) as [G1 G2]. rewrite Hsma in *.
      destruct sma as [p|].
      * rewrite G2 by (try congruence; destruct Ha; congruence). reflexivity.
      * rewrite G1 by reflexivity. cbn [bind]. eexists; split; [reflexivity|].
        constructor; cbn [fst snd set_info aq_set q_nelems q_sma q_nmin q_info a_items a_low length]; auto using set_info_rel; try lia.
        rewrite Hinfo. info_eq.
    + destruct (queue_get_some sto q g e l _ Hc HQ HG) as
        [q' [g' [E1 [R1 [R2 [E2 [E3 [E4 E5]]]]]]]]; [now rewrite Hsma|].
      rewrite E1. cbn [bind]. eexists; split; [reflexivity|].
      cbn [length] in *.
      constructor; cbn [fst snd aq_set a_items a_low]; try congruence; try lia.
      * rewrite E5, Hinfo. info_eq.
      * rewrite Hsma in R2. destruct l; eapply rg_rel_ext; try exact R2;
          intros x; [apply own_ready_twice | reflexivity].
  - (* deplete *)
    destruct (queue_deplete_rel sto q g _ _ Hc HQ HG) as
      [q' [g' [E1 [R1 [R2 [E2 [E3 [E4 E5]]]]]]]]; [now rewrite Hsma|].
    rewrite E1. cbn [bind]. eexists; split; [reflexivity|].
    constructor; cbn [fst snd aq_set a_items a_low length]; try congruence; try lia.
    + rewrite E5, Hinfo. info_eq.
    + rewrite Hsma in R2. eapply rg_rel_ext; [|exact R2]. intros x. apply own_ready_twice.
  - (* is_full *)
    eexists; split; [unfold queue_is_full; now rewrite (qr_qty _ _ _ HQ), Hn |].
    constructor; auto.
  - (* num *)
    eexists; split; [unfold queue_get_num; now rewrite (qr_qty _ _ _ HQ) |].
    constructor; auto.
  - (* lwm *)
    eexists; split; [unfold queue_get_lwm; now rewrite Hlow |]. constructor; auto.
  - (* read *)
    rewrite (queue_read_rel sto q _ buf HQ). cbn [bind].
    destruct (a_items a) as [|e l] eqn:El; eexists; (split; [reflexivity|]);
      (constructor; cbn [fst snd set_info aq_set q_nelems q_sma q_nmin q_info a_items a_low]; auto using set_info_rel; try lia);
      rewrite Hinfo; info_eq.
  - (* info *)
    eexists; split; [unfold queue_get_info; now rewrite Hinfo |]. constructor; auto.
  - (* clear *)
    eexists; split; [reflexivity|].
    constructor; cbn [fst snd queue_clear_info set_info q_nelems q_sma q_nmin q_info a_items a_low]; auto.
    now apply set_info_rel.
Qed.

Lemma q_run_sim sto n sma S0 ops : forall s a,
  (1 <= max_sma (q_rg c) <= 64)%N -> sma_ok c sma ->
  (q_asrt c = true \/ sma = None) ->
  sys_rel sto n sma S0 s a ->
  match run (aq_step (q_asrt c) (match sma with Some _ => true | None => false end) n) a ops with
  | Ok (a', rs) => exists s', run (q_step c) s ops = Ok (s', rs) /\ sys_rel sto n sma S0 s' a'
  | Fault f => run (q_step c) s ops = Fault f
  end.
Proof.
  induction ops as [|o t IH]; intros s a Hc Hs Ha HR; cbn [run].
  - eauto.
  - pose proof (q_step_sim sto n sma S0 s a o Hc Hs Ha HR) as Hstep.
    destruct (aq_step _ _ n a o) as [[a1 r]|f]; cbn [bind].
    + destruct Hstep as [s1 [E1 R1]]. rewrite E1. cbn [bind].
      specialize (IH s1 a1 Hc Hs Ha R1).
      destruct (run _ a1 t) as [[a2 rs]|f]; cbn [bind].
      * destruct IH as [s2 [E2 R2]]. rewrite E2. cbn [bind]. eauto.
      * now rewrite IH.
    + now rewrite Hstep.
Qed.

Lemma init_sys_rel sto n sma g S0 :
  0 < n -> n <= length sto -> rg_rel (q_rg c) g S0 ->
  (forall p, sma = Some p -> S0 p = false) ->
  sys_rel sto n sma S0 (queue_init sto n sma, g) (aq_init n).
Proof.
  intros H0 H1 HG Hp. constructor; cbn [fst snd aq_init a_items a_low length]; auto.
  - now apply queue_init_rel.
  - lia.
  - eapply rg_rel_ext; [|exact HG]. intros x. destruct sma as [p|]; [|reflexivity].
    simpl. destruct (N.eqb_spec x p); [subst; auto | reflexivity].
Qed.


(** C01: same outputs as the list for every call sequence. *)
Lemma queue_refines sto n sma ops :
  (1 <= max_sma (q_rg c) <= 64)%N -> sma_ok c sma ->
  (q_asrt c = true \/ sma = None) -> 0 < n -> n <= length sto ->
  outs (run (q_step c) (queue_init sto n sma, rg_init (q_rg c)) ops) =
  outs (run (aq_step (q_asrt c) (owned sma) n) (aq_init n) ops).
Proof.
  intros Hc Hs Ha H0 H1.
  pose proof (q_run_sim sto n sma (fun _ => false) ops
    (queue_init sto n sma, rg_init (q_rg c)) (aq_init n) Hc Hs Ha
    (init_sys_rel sto n sma _ _ H0 H1 (rg_init_rel (q_rg c)) (fun _ _ => eq_refl))) as H.
  unfold owned. destruct (run (aq_step _ _ n) (aq_init n) ops) as [[a rs]|f]; cbn [outs].
  - destruct H as [s [Er _]]. now rewrite Er.
  - now rewrite H.
Qed.

(** What a successful run tells. *)
Lemma queue_run_inv sto n sma ops s rs :
  (1 <= max_sma (q_rg c) <= 64)%N -> sma_ok c sma ->
  (q_asrt c = true \/ sma = None) -> 0 < n -> n <= length sto ->
  run (q_step c) (queue_init sto n sma, rg_init (q_rg c)) ops = Ok (s, rs) ->
  exists a, run (aq_step (q_asrt c) (owned sma) n) (aq_init n) ops = Ok (a, rs) /\ sys_rel sto n sma (fun _ => false) s a.
Proof.
  intros Hc Hs Ha H0 H1 HE.
  pose proof (q_run_sim sto n sma (fun _ => false) ops
    (queue_init sto n sma, rg_init (q_rg c)) (aq_init n) Hc Hs Ha
    (init_sys_rel sto n sma _ _ H0 H1 (rg_init_rel (q_rg c)) (fun _ _ => eq_refl))) as H.
  unfold owned. destruct (run (aq_step _ _ n) (aq_init n) ops) as [[a rs']|f].
  - destruct H as [s' [Er R]]. rewrite HE in Er. injection Er as <- <-. eauto.
  - congruence.
Qed.

Lemma queue_frame sto n sma ops s rs :
  (1 <= max_sma (q_rg c) <= 64)%N -> sma_ok c sma ->
  (q_asrt c = true \/ sma = None) -> 0 < n -> n <= length sto ->
  run (q_step c) (queue_init sto n sma, rg_init (q_rg c)) ops = Ok (s, rs) ->
  length (q_sto (fst s)) = length sto /\
  forall j, n <= j -> nth_error (q_sto (fst s)) j = nth_error sto j.
Proof.
  intros Hc Hs Ha H0 H1 HE.
  destruct (queue_run_inv _ _ _ _ _ _ Hc Hs Ha H0 H1 HE) as [a [_ R]].
  pose proof (sr_n _ _ _ _ _ _ R) as Hn. pose proof (sr_q _ _ _ _ _ _ R) as HQ.
  split; [apply HQ|]. intros j Hj. apply (qr_frame _ _ _ HQ). lia.
Qed.

(** C02 *)
Lemma queue_full_put sto n sma ops s rs pe :
  (1 <= max_sma (q_rg c) <= 64)%N -> sma_ok c sma ->
  (q_asrt c = true \/ sma = None) -> 0 < n -> n <= length sto ->
  run (q_step c) (queue_init sto n sma, rg_init (q_rg c)) ops = Ok (s, rs) ->
  queue_is_full (fst s) = true ->
  (q_asrt c = true -> pe <> None) ->
  if q_asrt c then
    queue_put_fifo c (fst s) (snd s) pe = Fault (FAssert 223) /\
    queue_put_lifo c (fst s) (snd s) pe = Fault (FAssert 265)
  else
    let q' := set_info (fst s) (iu_full (q_info (fst s))) in
    queue_put_fifo c (fst s) (snd s) pe = Ok (q', snd s) /\
    queue_put_lifo c (fst s) (snd s) pe = Ok (q', snd s).
Proof.
  intros Hc Hs Ha H0 H1 HE Hfull Hpe.
  destruct (queue_run_inv _ _ _ _ _ _ Hc Hs Ha H0 H1 HE) as [a [_ R]].
  pose proof (sr_q _ _ _ _ _ _ R) as HQ. unfold queue_is_full in Hfull.
  rewrite (qr_qty _ _ _ HQ) in Hfull. apply Nat.eqb_eq in Hfull.
  destruct (queue_put_full _ _ (snd s) _ pe HQ Hfull Hpe) as [F1 F2].
  destruct (q_asrt c); auto.
Qed.

(** C03 *)
Lemma aq_low_step asrt ow n (a : aq E) o a' r :
  a_low a <= n - length (a_items a) ->
  aq_step asrt ow n a o = Ok (a', r) ->
  a_low a' = Nat.min (a_low a) (n - length (a_items a')).
Proof.
  intros Hl H. destruct o; cbn [aq_step] in H;
    unfold aq_put in H;
    repeat match type of H with
    | context [match ?x with _ => _ end] => destruct x eqn:?
    end; try discriminate; injection H as <- <-; cbn [aq_set a_low a_items] in *; try lia;
    rewrite ?Heql in *; cbn [length] in *; lia.
Qed.

Lemma aq_low_run asrt ow n ops : forall a rs,
  run (aq_step asrt ow n) (aq_init n) ops = Ok (a, rs) ->
  a_low a <= n - length (@a_items E a) /\
  (forall k a1 rs1, run (aq_step asrt ow n) (aq_init n) (firstn k ops) = Ok (a1, rs1) ->
     a_low a <= n - length (a_items a1)) /\
  (exists k a1 rs1, run (aq_step asrt ow n) (aq_init n) (firstn k ops) = Ok (a1, rs1) /\
     a_low a = n - length (a_items a1)).
Proof.
  induction ops as [|o t IH] using rev_ind; intros a rs H.
  - cbn in H. injection H as <- <-. cbn. split; [lia|]. split.
    + intros k a1 rs1 H. rewrite firstn_nil in H. cbn in H. injection H as <- <-. cbn. lia.
    + exists 0. do 2 eexists. split; [reflexivity|]. cbn. lia.
  - rewrite run_app in H. apply bind_ok in H. destruct H as [[a0 rs0] [Hv H]].
    cbn [run] in H. destruct (aq_step asrt ow n a0 o) as [[a1 r1]|] eqn:Hv0;
      cbn [bind] in H; [|discriminate]. injection H as <- <-.
    destruct (IH _ _ Hv) as [I1 [I2 I3]].
    pose proof (aq_low_step _ _ _ _ _ _ _ I1 Hv0) as Hstep.
    assert (Hfull : run (aq_step asrt ow n) (aq_init n) (firstn (S (length t)) (t ++ [o])) = Ok (a1, rs0 ++ [r1])).
    { rewrite firstn_all2 by (rewrite app_length; cbn; lia).
      rewrite run_app, Hv. cbn. rewrite Hv0. reflexivity. }
    split; [lia|]. split.
    + intros k a2 rs2 H2. destruct (Nat.le_gt_cases k (length t)) as [Hle|Hgt].
      * rewrite firstn_app in H2. replace (k - length t) with 0 in H2 by lia.
        cbn [firstn] in H2. rewrite app_nil_r in H2. specialize (I2 _ _ _ H2). lia.
      * rewrite firstn_all2 in H2 by (rewrite app_length; cbn; lia).
        rewrite firstn_all2 in Hfull by (rewrite app_length; cbn; lia).
        rewrite Hfull in H2. injection H2 as <- <-. lia.
    + destruct (Nat.le_gt_cases (a_low a0) (n - length (a_items a1))) as [Hle|Hgt].
      * destruct I3 as [k [a2 [rs2 [E2 L2]]]]. exists (Nat.min k (length t)).
        exists a2, rs2. rewrite firstn_app.
        replace (Nat.min k (length t) - length t) with 0 by lia.
        cbn [firstn]. rewrite app_nil_r.
        split; [|lia]. destruct (Nat.le_gt_cases k (length t)).
        -- now replace (Nat.min k (length t)) with k by lia.
        -- replace (Nat.min k (length t)) with (length t) by lia.
           rewrite firstn_all. rewrite firstn_all2 in E2 by lia. assumption.
      * exists (S (length t)), a1, (rs0 ++ [r1]). split; [assumption | lia].
Qed.

Lemma queue_lwm_spec sto n sma ops s rs :
  (1 <= max_sma (q_rg c) <= 64)%N -> sma_ok c sma ->
  (q_asrt c = true \/ sma = None) -> 0 < n -> n <= length sto ->
  let s0 := (queue_init sto n sma, rg_init (q_rg c)) in
  run (q_step c) s0 ops = Ok (s, rs) ->
  (forall k s1 rs1, run (q_step c) s0 (firstn k ops) = Ok (s1, rs1) ->
     queue_get_lwm (fst s) <= n - queue_get_num (fst s1)) /\
  (exists k s1 rs1, run (q_step c) s0 (firstn k ops) = Ok (s1, rs1) /\
     queue_get_lwm (fst s) = n - queue_get_num (fst s1)).
Proof.
  intros Hc Hs Ha H0 H1 s0 HE.
  destruct (queue_run_inv _ _ _ _ _ _ Hc Hs Ha H0 H1 HE) as [a [Ea R]].
  destruct (aq_low_run _ _ _ _ _ _ Ea) as [_ [L2 L3]].
  unfold queue_get_lwm, queue_get_num. rewrite (sr_low _ _ _ _ _ _ R). split.
  - intros k s1 rs1 E1.
    destruct (queue_run_inv _ _ _ _ _ _ Hc Hs Ha H0 H1 E1) as [a1 [Ea1 R1]].
    rewrite (qr_qty _ _ _ (sr_q _ _ _ _ _ _ R1)). eauto.
  - destruct L3 as [k [a1 [rs1 [E1 L]]]].
    pose proof (q_run_sim sto n sma (fun _ => false) (firstn k ops) s0 (aq_init n) Hc Hs Ha
      (init_sys_rel sto n sma _ _ H0 H1 (rg_init_rel (q_rg c)) (fun _ _ => eq_refl))) as HS.
    unfold owned in E1. rewrite E1 in HS. destruct HS as [s1 [E2 R2]].
    exists k, s1, rs1. split; [assumption|].
    now rewrite (qr_qty _ _ _ (sr_q _ _ _ _ _ _ R2)).
Qed.

(** C04 *)
Lemma count_app {A} (f : A -> bool) (l1 l2 : list A) :
  count f (l1 ++ l2) = (count f l1 + count f l2)%N.
Proof. unfold count. rewrite filter_app, app_length. lia. Qed.

Lemma combine_snoc {A B} (l : list A) (m : list B) x y :
  length l = length m -> combine (l ++ [x]) (m ++ [y]) = combine l m ++ [(x, y)].
Proof.
  revert m; induction l as [|a l IH]; intros [|b m] H; simpl in *; try lia; [reflexivity|].
  f_equal. apply IH. lia.
Qed.

Lemma run_length {S O R} (step : S -> O -> res (S * R)) ops : forall s s' rs,
  run step s ops = Ok (s', rs) -> length rs = length ops.
Proof.
  induction ops as [|o t IH]; intros s s' rs H; cbn [run] in H.
  - injection H as <- <-. reflexivity.
  - destruct (step s o) as [[s1 r]|]; cbn [bind] in H; [|discriminate].
    destruct (run step s1 t) as [[s2 rs2]|] eqn:Er; cbn [bind] in H; [|discriminate].
    injection H as <- <-. cbn [length]. f_equal. eauto.
Qed.

Record cnt_rel (asrt : bool) (a : aq E) (tr : list (qop E * qout E)) : Prop := {
  cr_nn : asrt = true -> Forall (fun p => p <> None) (a_items a);
  cr_f : asrt = true -> a_fulls a = 0%N;
  cr_p : (a_puts a + a_fulls a)%N = count is_put tr;
  cr_g : (a_gets a + count is_empty_get tr)%N = (count is_get tr)%N;
  cr_e : a_empties a = (count is_empty_get tr + count is_empty_read tr)%N;
  cr_r : (a_reads a + count is_empty_read tr)%N = count is_read tr
}.

Lemma cnt_step ow n a o a' r tr :
  cnt_rel true a tr -> aq_step true ow n a o = Ok (a', r) ->
  cnt_rel true a' (if is_clear (o, r) then [] else tr ++ [(o, r)]).
Proof.
  intros [C1 C2 C3 C4 C5 C6] H. specialize (C1 eq_refl). specialize (C2 eq_refl).
  destruct o as [pe|pe| | | | | |buf| |]; cbn [aq_step] in H;
    unfold aq_put in H;
    repeat match type of H with
    | context [match ?x with _ => _ end] => destruct x eqn:?
    end; try discriminate; injection H as <- <-;
    try (match goal with Hl : Forall _ (?p :: ?l) |- _ =>
         inversion Hl; subst; destruct p; [|congruence] end);
    (constructor; cbn [is_clear] in *; rewrite ?count_app;
     cbn [aq_set a_items a_puts a_gets a_reads a_empties a_fulls] in *;
     intros;
     match goal with
     | |- Forall _ _ => idtac
     | _ => unfold count in *; cbn [filter is_put is_get is_empty_get is_read is_empty_read length] in *; lia
     end).
  all: try assumption; try (constructor; fail).
  - apply Forall_app. split; [assumption|]. constructor; [congruence|constructor].
  - constructor; [congruence|assumption].
Qed.

Lemma since_clear_snoc (tr : list (qop E * qout E)) x :
  since_clear (tr ++ [x]) = if is_clear x then [] else since_clear tr ++ [x].
Proof. unfold since_clear. rewrite fold_left_app. reflexivity. Qed.

Lemma cnt_run ow n ops : forall a rs,
  run (aq_step true ow n) (aq_init n) ops = Ok (a, rs) ->
  cnt_rel true a (since_clear (combine ops rs)).
Proof.
  induction ops as [|o t IH] using rev_ind; intros a rs H.
  - cbn in H. injection H as <- <-. constructor; cbn; auto.
  - rewrite run_app in H. apply bind_ok in H. destruct H as [[a0 rs0] [Hv H]].
    cbn [run] in H. destruct (aq_step true ow n a0 o) as [[a1 r1]|] eqn:Hv0;
      cbn [bind] in H; [|discriminate]. injection H as <- <-.
    rewrite combine_snoc by (symmetry; eapply run_length; eauto).
    rewrite since_clear_snoc. eapply cnt_step; eauto.
Qed.

Lemma queue_info_spec sto n sma ops s rs :
  (1 <= max_sma (q_rg c) <= 64)%N -> sma_ok c sma ->
  q_asrt c = true -> 0 < n -> n <= length sto ->
  run (q_step c) (queue_init sto n sma, rg_init (q_rg c)) ops = Ok (s, rs) ->
  let tr := since_clear (combine ops rs) in
  queue_get_info (fst s) =
  mkQI (count is_put tr mod 65536)
       ((count is_get tr - count is_empty_get tr) mod 65536)
       ((count is_read tr - count is_empty_read tr) mod 65536)
       ((count is_empty_get tr + count is_empty_read tr) mod 65536) 0.
Proof.
  intros Hc Hs Ha H0 H1 HE tr.
  destruct (queue_run_inv _ _ _ _ _ _ Hc Hs (or_introl Ha) H0 H1 HE) as [a [Ea R]].
  rewrite Ha in Ea. apply cnt_run in Ea. fold tr in Ea. destruct Ea as [C1 C2 C3 C4 C5 C6].
  specialize (C2 Ha) || specialize (C2 eq_refl).
  unfold queue_get_info. rewrite (sr_info _ _ _ _ _ _ R). unfold aq_info.
  rewrite C2 in *. f_equal; f_equal; lia.
Qed.

(** C06 *)
Lemma queue_read_spec sto n sma ops s rs buf :
  (1 <= max_sma (q_rg c) <= 64)%N -> sma_ok c sma ->
  (q_asrt c = true \/ sma = None) -> 0 < n -> n <= length sto ->
  run (q_step c) (queue_init sto n sma, rg_init (q_rg c)) ops = Ok (s, rs) ->
  exists i st, queue_read (fst s) buf = Ok (set_info (fst s) i, st, buf) /\
            (st = QUE_EMPTY <-> queue_get_num (fst s) = 0).
Proof.
  intros Hc Hs Ha H0 H1 HE.
  destruct (queue_run_inv _ _ _ _ _ _ Hc Hs Ha H0 H1 HE) as [a [_ R]].
  pose proof (sr_q _ _ _ _ _ _ R) as HQ. rewrite (queue_read_rel _ _ _ buf HQ).
  unfold queue_get_num. rewrite (qr_qty _ _ _ HQ).
  destruct (a_items a); do 2 eexists; (split; [reflexivity|]); cbn; split; congruence.
Qed.
End Q.


