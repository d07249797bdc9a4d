(** Proofs: events in memory — blocks, counters and who holds them. *)
From Verif Require Import Base L_Base M_RdyGrp M_Queue M_MemPool S_MemPool L_MemPool M_Kernel S_Kernel.
From Coq Require Import Permutation.
Local Open Scope N_scope.

Lemma get_mk_cell n : get_link (CLink n) = Some n.
Proof. reflexivity. Qed.

Section KM.
Context (c : kcfg) (statics : list (N * N)) (PB : list (list N)) (m0 : @mem cell).

Definition stat (e : N) : Prop := exists sig, In (e, sig) statics.
Definition inpool (i : nat) (a : N) : Prop := exists B, nth_error PB i = Some B /\ In a B.

Record pb_ok : Prop := {
  pb_mp : mp_cfg_ok (k_mp c);
  pb_len : (length PB <= 255)%nat;
  pb_one : forall i j a, inpool i a -> inpool j a -> i = j;
  pb_nz : forall i a, inpool i a -> a <> 0;
  pb_stat : forall i a, inpool i a -> ~ stat a;
  pb_snz : forall e, stat e -> e <> 0 }.
Context (OK : pb_ok).

(** State of the block [a] of pool [i]. *)
Definition blk (m : @mem cell) (T : N -> nat) (W : nat -> N -> nat) (F : N -> nat) (D : nat -> N -> nat)
    (i : nat) (a : N) (own : Prop) : Prop :=
  (~ own /\ T a = 0 /\ W i a = 0 /\ F a = 0 /\ D i a = 0)%nat \/
  own /\
  ((T a = 0 /\ W i a = 1 /\ F a = 0 /\ D i a = 0)%nat \/
   ((T a = 0 /\ W i a = 0 /\ F a = 1 /\ D i a = 0)%nat /\
      exists sig, m a = Some (CEvt sig 0 (N.of_nat i + 1))) \/
   (T a = 0 /\ W i a = 0 /\ F a = 0 /\ D i a = 1)%nat \/
   ((1 <= T a /\ W i a = 0 /\ F a = 0 /\ D i a = 0)%nat /\
      exists sig, m a = Some (CEvt sig (u8 (N.of_nat (T a))) (N.of_nat i + 1)))).

Record KM (m : @mem cell) (ep : list mpool) (T : N -> nat) (W : nat -> N -> nat)
    (F : N -> nat) (D : nat -> N -> nat) : Prop := {
  km_pool : forall i B, nth_error PB i = Some B -> exists p owned,
      nth_error ep i = Some p /\ mp_inv get_link (k_mp c) p m B owned /\
      forall a, In a B -> blk m T W F D i a (In a owned);
  km_stat : forall e sig, In (e, sig) statics -> m e = Some (CEvt sig 0 0);
  km_W : forall i a, (0 < W i a)%nat -> inpool i a;
  km_D : forall i a, (0 < D i a)%nat -> inpool i a;
  km_F : forall a, (0 < F a)%nat -> exists i, inpool i a;
  km_T : forall a, (0 < T a)%nat -> stat a \/ exists i, inpool i a;
  (* nothing else is written *)
  km_rest : forall a, ~ (exists i, inpool i a) -> m a = m0 a }.

Lemma KM_ext m ep T W F D T' W' F' D' :
  KM m ep T W F D ->
  (forall a, T' a = T a) -> (forall i a, W' i a = W i a) -> (forall a, F' a = F a) ->
  (forall i a, D' i a = D i a) -> KM m ep T' W' F' D'.
Proof.
  intros H HT HW HF HD. destruct H. constructor.
  - intros i B HB. destruct (km_pool0 i B HB) as (p & ow & Hp & Hi & Hb). exists p, ow.
    split; [exact Hp|]. split; [exact Hi|]. intros a Ha. specialize (Hb a Ha). unfold blk in *.
    rewrite HT, HW, HF, HD. exact Hb.
  - assumption.
  - intros i a. rewrite HW. auto.
  - intros i a. rewrite HD. auto.
  - intros a. rewrite HF. auto.
  - intros a. rewrite HT. auto.
  - assumption.
Qed.

(** The block of an address in a pool. *)
Lemma KM_blk m ep T W F D i a : KM m ep T W F D -> inpool i a ->
  exists p owned B, nth_error PB i = Some B /\ In a B /\ nth_error ep i = Some p /\
    mp_inv get_link (k_mp c) p m B owned /\ blk m T W F D i a (In a owned).
Proof.
  intros H (B & HB & Ha). destruct (km_pool _ _ _ _ _ _ H i B HB) as (p & ow & Hp & Hi & Hb).
  exists p, ow, B. auto 10.
Qed.

Lemma KM_live m ep T W F D i a : KM m ep T W F D -> inpool i a -> (0 < T a)%nat ->
  (W i a = 0 /\ F a = 0 /\ D i a = 0)%nat /\
  exists sig, m a = Some (CEvt sig (u8 (N.of_nat (T a))) (N.of_nat i + 1)).
Proof.
  intros H Hi HT. destruct (KM_blk _ _ _ _ _ _ _ _ H Hi) as (p & ow & B & HB & Ha & Hp & Hv & Hb).
  unfold blk in Hb. destruct Hb as [Hb|(Ho & [Hb|[(Hb & _)|[Hb|(Hb & He)]]])]; try lia.
  split; [lia | exact He].
Qed.

Lemma KM_fresh m ep T W F D a : KM m ep T W F D -> (0 < F a)%nat ->
  exists i, inpool i a /\ (T a = 0 /\ W i a = 0 /\ F a = 1 /\ D i a = 0)%nat /\
  exists sig, m a = Some (CEvt sig 0 (N.of_nat i + 1)).
Proof.
  intros H HF. destruct (km_F _ _ _ _ _ _ H a HF) as [i Hi]. exists i. split; [exact Hi|].
  destruct (KM_blk _ _ _ _ _ _ _ _ H Hi) as (p & ow & B & HB & Ha & Hp & Hv & Hb).
  unfold blk in Hb. destruct Hb as [Hb|(Ho & [Hb|[(Hb & He)|[Hb|(Hb & He)]]])]; try lia.
  split; [lia | exact He].
Qed.

Lemma hdr_rd_ok (m : @mem cell) e sig n p : e <> 0 -> m e = Some (CEvt sig n p) -> hdr_rd m e = Ok (sig, n, p).
Proof. intros He Hm. unfold hdr_rd. destruct (N.eqb_spec e 0); [congruence|]. now rewrite Hm. Qed.
Lemma hdr_wr_ok (m : @mem cell) e v sig n p : e <> 0 -> m e = Some v ->
  hdr_wr m e sig n p = Ok (fun x => if x =? e then Some (CEvt sig n p) else m x).
Proof. intros He Hm. unfold hdr_wr, mem_wr. destruct (N.eqb_spec e 0); [congruence|]. now rewrite Hm. Qed.

(** Replacing the content of one owned block, everything else equal. *)
Lemma KM_write m ep T W F D T' W' F' D' i a v :
  KM m ep T W F D -> inpool i a ->
  (0 < T a + W i a + F a + D i a)%nat ->
  (forall x, x <> a -> T' x = T x /\ F' x = F x) ->
  (forall j x, x <> a \/ j <> i -> W' j x = W j x /\ D' j x = D j x) ->
  let m' := fun x => if x =? a then Some v else m x in
  ((T' a = 0 /\ W' i a = 1 /\ F' a = 0 /\ D' i a = 0)%nat \/
   ((T' a = 0 /\ W' i a = 0 /\ F' a = 1 /\ D' i a = 0)%nat /\
      exists sig, v = CEvt sig 0 (N.of_nat i + 1)) \/
   (T' a = 0 /\ W' i a = 0 /\ F' a = 0 /\ D' i a = 1)%nat \/
   ((1 <= T' a /\ W' i a = 0 /\ F' a = 0 /\ D' i a = 0)%nat /\
      exists sig, v = CEvt sig (u8 (N.of_nat (T' a))) (N.of_nat i + 1))) ->
  KM m' ep T' W' F' D'.
Proof.
  intros H Hi Hpos HTF HWD m' Hnew. pose proof H as [Hpool Hst HW HD HF HT Hre].
  assert (Hna : ~ stat a) by (eapply pb_stat; eauto).
  assert (Hm' : forall x, x <> a -> m' x = m x).
  { intros x Hx. unfold m'. now destruct (N.eqb_spec x a). }
  assert (Hma : m' a = Some v) by (unfold m'; now rewrite N.eqb_refl).
  constructor.
  - intros j B HB. destruct (Hpool j B HB) as (p & ow & Hp & Hv & Hb). exists p, ow.
    split; [exact Hp|]. split.
    + eapply mp_inv_mem; [exact Hv| |].
      * intros x Hx. unfold m'. destruct (N.eqb_spec x a); [discriminate|exact Hx].
      * intros x HxB Hxo. apply Hm'. intros ->.
        assert (j = i) by (eapply pb_one; [exact OK | exists B; eauto | exact Hi]). subst j.
        specialize (Hb a HxB). unfold blk in Hb. destruct Hb as [Hb|[Ho _]]; [lia|tauto].
    + intros x Hx. destruct (N.eq_dec x a) as [->|Hxa].
      * assert (j = i) by (eapply pb_one; [exact OK | exists B; eauto | exact Hi]). subst j.
        specialize (Hb a Hx). unfold blk in Hb |- *. right.
        split; [destruct Hb as [Hb|[Ho _]]; [lia|exact Ho]|].
        rewrite Hma. destruct Hnew as [Hn|[(Hn & sig & ->)|[Hn|(Hn & sig & ->)]]]; eauto 7.
      * specialize (Hb x Hx). unfold blk in Hb |- *. rewrite (Hm' x Hxa).
        destruct (HTF x Hxa) as [-> ->]. destruct (HWD j x (or_introl Hxa)) as [-> ->]. exact Hb.
  - intros e sig He. rewrite Hm'; [now apply Hst|]. intros ->. apply Hna. now exists sig.
  - intros j x Hx. destruct (N.eq_dec x a) as [->|Hxa].
    + destruct (Nat.eq_dec j i) as [->|Hj]; [exact Hi|].
      destruct (HWD j a (or_intror Hj)) as [E1 _]. rewrite E1 in Hx. now apply HW.
    + destruct (HWD j x (or_introl Hxa)) as [E1 _]. rewrite E1 in Hx. now apply HW.
  - intros j x Hx. destruct (N.eq_dec x a) as [->|Hxa].
    + destruct (Nat.eq_dec j i) as [->|Hj]; [exact Hi|].
      destruct (HWD j a (or_intror Hj)) as [_ E1]. rewrite E1 in Hx. now apply HD.
    + destruct (HWD j x (or_introl Hxa)) as [_ E1]. rewrite E1 in Hx. now apply HD.
  - intros x Hx. destruct (N.eq_dec x a) as [->|Hxa]; [eauto|].
    destruct (HTF x Hxa) as [_ E1]. rewrite E1 in Hx. now apply HF.
  - intros x Hx. destruct (N.eq_dec x a) as [->|Hxa]; [eauto|].
    destruct (HTF x Hxa) as [E1 _]. rewrite E1 in Hx. now apply HT.
  - intros x Hx. rewrite Hm'; [now apply Hre|]. intros ->. apply Hx. eauto.
Qed.

(** Same, without touching memory. *)
Lemma KM_relabel m ep T W F D T' W' F' D' i a :
  KM m ep T W F D -> inpool i a ->
  (0 < T a + W i a + F a + D i a)%nat ->
  (forall x, x <> a -> T' x = T x /\ F' x = F x) ->
  (forall j x, x <> a \/ j <> i -> W' j x = W j x /\ D' j x = D j x) ->
  (T' a = 0 /\ W' i a = 0 /\ F' a = 0 /\ D' i a = 1)%nat ->
  KM m ep T' W' F' D'.
Proof.
  intros H Hi Hpos HTF HWD Hnew.
  destruct (KM_blk _ _ _ _ _ _ _ _ H Hi) as (p & ow & B & HB & Ha & Hp & Hv & Hb).
  destruct (iv_nz _ _ _ _ _ _ Hv a Ha) as (_ & Hd & _).
  destruct (m a) as [v|] eqn:Ev; [|congruence].
  pose proof (KM_write m ep T W F D T' W' F' D' i a v H Hi Hpos HTF HWD) as K. cbn zeta in K.
  assert (K' : KM (fun x => if x =? a then Some v else m x) ep T' W' F' D') by (apply K; auto).
  clear K. destruct K' as [Hpool Hst HW HD HF HT Hre].
  assert (Hsame : forall x, (if x =? a then Some v else m x) = m x).
  { intros x. destruct (N.eqb_spec x a) as [->|]; congruence. }
  constructor; auto.
  - intros j B' HB'. destruct (Hpool j B' HB') as (p' & ow' & Hp' & Hv' & Hb').
    exists p', ow'. split; [exact Hp'|]. split.
    + eapply mp_inv_mem; [exact Hv'| |].
      * intros x Hx. cbv beta in Hx. now rewrite Hsame in Hx.
      * intros x _ _. cbv beta. now rewrite Hsame.
    + intros x Hx. specialize (Hb' x Hx). unfold blk in *. cbv beta in Hb'. now rewrite Hsame in Hb'.
  - intros e sig He. specialize (Hst e sig He). cbv beta in Hst. now rewrite Hsame in Hst.
  - intros x Hx. specialize (Hre x Hx). cbv beta in Hre. now rewrite Hsame in Hre.
Qed.

(** Static events and live events can be read. *)
Lemma KM_hdr m ep T W F D e : KM m ep T W F D ->
  (stat e -> exists sig, hdr_rd m e = Ok (sig, 0, 0)) /\
  (forall i, inpool i e -> (0 < T e)%nat ->
     exists sig, hdr_rd m e = Ok (sig, u8 (N.of_nat (T e)), N.of_nat i + 1)) /\
  ((0 < F e)%nat -> exists i sig, inpool i e /\ hdr_rd m e = Ok (sig, 0, N.of_nat i + 1)).
Proof.
  intros H. split; [|split].
  - intros [sig He]. exists sig. apply hdr_rd_ok.
    + eapply pb_snz; [exact OK|now exists sig].
    + eapply km_stat; eauto.
  - intros i Hi HT. destruct (KM_live _ _ _ _ _ _ i e H Hi HT) as (_ & sig & Hm). exists sig.
    apply hdr_rd_ok; [eapply pb_nz; eauto|exact Hm].
  - intros HF. destruct (KM_fresh _ _ _ _ _ _ e H HF) as (i & Hi & _ & sig & Hm). exists i, sig.
    split; [exact Hi|]. apply hdr_rd_ok; [eapply pb_nz; eauto|exact Hm].
Qed.

Definition usable (T F : N -> nat) (e : N) : Prop := stat e \/ (0 < T e)%nat \/ (0 < F e)%nat.

(** One more reference to [e]. *)
Lemma KM_inc s ep T W F D e :
  KM (k_mem s) ep T W F D -> usable T F e ->
  exists m', inc_ref s e = Ok (set_mem s m') /\
    (forall a, ~ (exists i, inpool i a) -> m' a = k_mem s a) /\
    forall T' F', (forall a, a <> e -> T' a = T a /\ F' a = F a) -> F' e = 0%nat -> T' e = S (T e) ->
      KM m' ep T' W F' D.
Proof.
  intros H Hu. pose proof (KM_hdr _ _ _ _ _ _ e H) as (Hs1 & Hs2 & Hs3).
  unfold inc_ref.
  assert (Hcase : stat e \/ ~ stat e /\ exists i sig, inpool i e /\
     hdr_rd (k_mem s) e = Ok (sig, u8 (N.of_nat (T e)), N.of_nat i + 1) /\ W i e = 0%nat /\ D i e = 0%nat /\
     (0 < T e + F e)%nat).
  { destruct Hu as [Hu|[Hu|Hu]]; [now left| |].
    - destruct (km_T _ _ _ _ _ _ H e Hu) as [Hst|[i Hi]]; [now left|right].
      split; [eapply pb_stat; eauto|]. destruct (Hs2 i Hi Hu) as [sig E1].
      destruct (KM_live _ _ _ _ _ _ i e H Hi Hu) as ((? & ? & ?) & _).
      exists i, sig. split; [exact Hi|]. split; [exact E1|]. lia.
    - right. destruct (KM_fresh _ _ _ _ _ _ e H Hu) as (i & Hi & (E1 & E2 & E3 & E4) & sig & Hm).
      split; [eapply pb_stat; eauto|]. exists i, sig. split; [exact Hi|]. rewrite E1.
      split; [apply hdr_rd_ok; [eapply pb_nz; eauto|exact Hm]|]. lia. }
  destruct Hcase as [Hst|(Hns & i & sig & Hi & E1 & HW0 & HD0 & Hpos)].
  - destruct (Hs1 Hst) as [sig E1]. rewrite E1. cbn [bind]. change (0 =? 0) with true. cbv iota.
    exists (k_mem s). split; [destruct s; reflexivity|]. split; [reflexivity|].
    intros T' F' Ho HF HT. destruct H as [Hpool Hstt HW HD HF0 HT0 Hre].
    assert (Hne : forall j B x, nth_error PB j = Some B -> In x B -> x <> e).
    { intros j B x HB Hx ->. eapply (pb_stat OK j e); [exists B; auto|exact Hst]. }
    constructor; auto.
    + intros j B HB. destruct (Hpool j B HB) as (p & ow & Hp & Hv & Hb). exists p, ow.
      split; [exact Hp|]. split; [exact Hv|]. intros x Hx.
      destruct (Ho x (Hne j B x HB Hx)) as [ET EF]. specialize (Hb x Hx). unfold blk in *.
      now rewrite ET, EF.
    + intros x Hx. destruct (N.eq_dec x e) as [->|Hxe]; [lia|].
      destruct (Ho x Hxe) as [_ EF]. rewrite EF in Hx. now apply HF0.
    + intros x Hx. destruct (N.eq_dec x e) as [->|Hxe]; [now left|].
      destruct (Ho x Hxe) as [ET _]. rewrite ET in Hx. now apply HT0.
  - rewrite E1. cbn [bind]. destruct (N.eqb_spec (N.of_nat i + 1) 0) as [|_]; [lia|].
    pose proof (pb_nz OK i e Hi) as Hnz.
    assert (Hm : exists v, k_mem s e = Some v).
    { unfold hdr_rd in E1. destruct (e =? 0); [discriminate|]. destruct (k_mem s e); [eauto|discriminate]. }
    destruct Hm as [v Hm]. rewrite (hdr_wr_ok _ _ v) by assumption. cbn [bind].
    eexists. split; [reflexivity|]. split.
    { intros a Ha. destruct (N.eqb_spec a e) as [->|]; [|reflexivity]. exfalso. apply Ha. eauto. }
    intros T' F' Ho HF HT. eapply KM_write; [exact H|exact Hi|lia|exact Ho|auto|].
    right; right; right. split; [lia|]. exists sig. f_equal. rewrite HT.
    unfold u8. rewrite N.add_mod_idemp_l by lia. f_equal. lia.
Qed.

(** Dropping a reference that is not the last one. *)
Lemma KM_dec m ep T W F D e i :
  KM m ep T W F D -> inpool i e -> (2 <= T e <= 255)%nat ->
  exists sig m', hdr_rd m e = Ok (sig, N.of_nat (T e), N.of_nat i + 1) /\
    hdr_wr m e sig (N.of_nat (T e) - 1) (N.of_nat i + 1) = Ok m' /\
    (forall a, ~ (exists i, inpool i a) -> m' a = m a) /\
    forall T', (forall a, a <> e -> T' a = T a) -> (S (T' e) = T e)%nat -> KM m' ep T' W F D.
Proof.
  intros H Hi HT. destruct (KM_live _ _ _ _ _ _ i e H Hi ltac:(lia)) as ((HW & HF & HD) & sig & Hm).
  rewrite u8_small in Hm by lia. pose proof (pb_nz OK i e Hi) as Hnz.
  exists sig. eexists. split; [now apply hdr_rd_ok|]. split; [now apply (hdr_wr_ok _ _ _ _ _ _ Hnz Hm)|].
  split.
  { intros a Ha. destruct (N.eqb_spec a e) as [->|]; [|reflexivity]. exfalso. apply Ha. eauto. }
  intros T' Ho HT'. eapply KM_write; [exact H|exact Hi|lia|intros; split; auto|auto|].
  right; right; right. split; [lia|]. exists sig. f_equal. rewrite u8_small by lia. lia.
Qed.

(** Taking a block. *)
Lemma KM_alloc s T W F D i p :
  KM (k_mem s) (k_ep s) T W F D -> (i < length PB)%nat -> nth_error (k_ep s) i = Some p ->
  (exists B owned, nth_error PB i = Some B /\ mp_inv get_link (k_mp c) p (k_mem s) B owned /\
     length owned = length B /\ mp_get get_link (k_mp c) p (k_mem s) = Ok (p, 0)) \/
  exists p' b, mp_get get_link (k_mp c) p (k_mem s) = Ok (p', b) /\ b <> 0 /\ inpool i b /\
    (T b = 0 /\ W i b = 0 /\ F b = 0 /\ D i b = 0)%nat /\
    mp_bsize p' = mp_bsize p /\ mp_nfree p' = mp_nfree p - 1 /\ mp_nblocks p' = mp_nblocks p /\
    forall W', (forall j x, x <> b \/ j <> i -> W' j x = W j x) -> W' i b = 1%nat ->
      KM (k_mem s) (upd (k_ep s) i p') T W' F D.
Proof.
  intros H Hi Hp. destruct (nth_error PB i) as [B|] eqn:HB; [|apply nth_error_None in HB; lia].
  pose proof H as [Hpool Hst HW HD HF HT Hre].
  destruct (Hpool i B HB) as (p0 & ow & Hp0 & Hv & Hb). rewrite Hp in Hp0. injection Hp0 as <-.
  destruct (mp_get_spec CLink get_link (k_mp c) get_mk_cell p (k_mem s) B ow Hv)
    as [(Hl & E1)|(Hl & p' & b & E1 & Hb0 & HbB & Hbo & Hv' & Hnf & _ & Hbs & Hnb & _)].
  - left. exists B, ow. auto.
  - right. exists p', b. split; [exact E1|]. split; [exact Hb0|].
    assert (Hin : inpool i b) by (exists B; auto).
    split; [exact Hin|].
    assert (Hz : (T b = 0 /\ W i b = 0 /\ F b = 0 /\ D i b = 0)%nat).
    { specialize (Hb b HbB). unfold blk in Hb. destruct Hb as [Hb|[Ho _]]; [tauto|contradiction]. }
    split; [exact Hz|]. repeat (split; [assumption|]).
    intros W' HW' HWb. constructor; auto.
    + intros j B' HB'. destruct (Nat.eq_dec j i) as [->|Hj].
      * assert (B' = B) by congruence. subst B'. exists p', (b :: ow).
        split; [apply nth_upd_eq; eapply nth_some_lt; eauto|]. split; [exact Hv'|].
        intros x Hx. specialize (Hb x Hx). unfold blk in Hb |- *.
        destruct (N.eq_dec x b) as [->|Hxb].
        -- right. split; [now left|]. left. lia.
        -- rewrite (HW' i x) by auto. cbn [In].
           destruct Hb as [(Hn & Hb)|(Ho & Hb)].
           ++ left. split; [|exact Hb]. intros [->|?]; [congruence|contradiction].
           ++ right. split; [now right|exact Hb].
      * destruct (Hpool j B' HB') as (q & ow' & Hq & Hvq & Hbq). exists q, ow'.
        split; [rewrite nth_upd_ne by auto; exact Hq|]. split; [exact Hvq|].
        intros x Hx. specialize (Hbq x Hx). unfold blk in Hbq |- *. rewrite (HW' j x) by auto. exact Hbq.
    + intros j x Hx. destruct (N.eq_dec x b) as [->|Hxb].
      * destruct (Nat.eq_dec j i) as [->|Hj]; [exact Hin|]. rewrite HW' in Hx by auto. auto.
      * rewrite HW' in Hx by auto. auto.
Qed.

(** Returning a block. *)
Lemma KM_put s T W F D i p e :
  KM (k_mem s) (k_ep s) T W F D -> (0 < D i e)%nat -> nth_error (k_ep s) i = Some p ->
  exists p' m', mp_put CLink (k_mp c) p (k_mem s) e = Ok (p', m') /\
    mp_nfree p' = mp_nfree p + 1 /\ mp_bsize p' = mp_bsize p /\ mp_nblocks p' = mp_nblocks p /\
    (forall a, ~ (exists i, inpool i a) -> m' a = k_mem s a) /\
    forall D', (forall j x, x <> e \/ j <> i -> D' j x = D j x) -> D' i e = 0%nat ->
      KM m' (upd (k_ep s) i p') T W F D'.
Proof.
  intros H HDe Hp. pose proof H as [Hpool Hst HW HD HF HT Hre].
  pose proof (HD i e HDe) as Hin. pose proof Hin as (B & HB & HeB).
  destruct (Hpool i B HB) as (p0 & ow & Hp0 & Hv & Hb). rewrite Hp in Hp0. injection Hp0 as <-.
  assert (Hbe := Hb e HeB). unfold blk in Hbe.
  assert (Ho : In e ow /\ (T e = 0 /\ W i e = 0 /\ F e = 0)%nat).
  { destruct Hbe as [Hbe|(Ho & [Hbe|[(Hbe & _)|[Hbe|(Hbe & _)]]])]; try lia. split; [exact Ho|lia]. }
  destruct Ho as [Ho Hz].
  destruct (mp_put_spec CLink get_link (k_mp c) get_mk_cell p (k_mem s) B ow e Hv Ho)
    as (p' & m' & E1 & Hv' & Hfr & Hme & Hnf & _ & Hbs & Hnb & _).
  exists p', m'. split; [exact E1|]. repeat (split; [assumption|]). split.
  { intros a Ha. apply Hfr. intros ->. apply Ha. eauto. }
  intros D' HD' HDe'. constructor; auto.
  - intros j B' HB'. destruct (Nat.eq_dec j i) as [->|Hj].
    + assert (B' = B) by congruence. subst B'. exists p', (remove N.eq_dec e ow).
      split; [apply nth_upd_eq; eapply nth_some_lt; eauto|]. split; [exact Hv'|].
      intros x Hx. specialize (Hb x Hx). unfold blk in Hb |- *.
      destruct (N.eq_dec x e) as [->|Hxe].
      * left. split; [apply remove_In|]. lia.
      * rewrite (Hfr x Hxe), (HD' i x) by auto.
        destruct Hb as [(Hn & Hb)|(Hox & Hb)].
        -- left. split; [|exact Hb]. intros Hr. apply in_remove in Hr. tauto.
        -- right. split; [now apply in_in_remove|exact Hb].
    + destruct (Hpool j B' HB') as (q & ow' & Hq & Hvq & Hbq). exists q, ow'.
      assert (Hne : forall x, In x B' -> x <> e).
      { intros x Hx ->. apply Hj. eapply pb_one; [exact OK|exists B'; eauto|exact Hin]. }
      split; [rewrite nth_upd_ne by auto; exact Hq|]. split.
      * eapply mp_inv_mem; [exact Hvq| |].
        -- intros x Hx. destruct (N.eq_dec x e) as [->|Hxe]; [rewrite Hme; discriminate|].
           now rewrite Hfr.
        -- intros x Hx _. apply Hfr. eauto.
      * intros x Hx. specialize (Hbq x Hx). unfold blk in Hbq |- *.
        rewrite (Hfr x (Hne x Hx)), (HD' j x) by auto. exact Hbq.
  - intros e' sig He. rewrite Hfr; [now apply Hst|]. intros ->.
    eapply (pb_stat OK i e Hin). now exists sig.
  - intros j x Hx. destruct (N.eq_dec x e) as [->|Hxb].
    + destruct (Nat.eq_dec j i) as [->|Hj]; [exact Hin|]. rewrite HD' in Hx by auto. auto.
    + rewrite HD' in Hx by auto. auto.
  - intros x Hx. rewrite Hfr; [now apply Hre|]. intros ->. apply Hx. eauto.
Qed.
End KM.
