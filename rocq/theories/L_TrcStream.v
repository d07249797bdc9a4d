(** Proofs: the ring buffer of the trace stream. *)
From Verif Require Import Base L_Base M_TrcStream S_TrcStream.

Lemma lastn_all {A} n (l : list A) : length l <= n -> lastn n l = l.
Proof. intros H. unfold lastn. now replace (length l - n) with 0 by lia. Qed.

Lemma lastn_len {A} n (l : list A) : length (lastn n l) = Nat.min n (length l).
Proof. unfold lastn. rewrite skipn_length. lia. Qed.

Lemma lastn_app1 {A} n (l1 l2 : list A) : lastn n (lastn n l1 ++ l2) = lastn n (l1 ++ l2).
Proof.
  unfold lastn. rewrite !app_length, skipn_length.
  destruct (Nat.le_gt_cases (length l1) n) as [H|H].
  - replace (length l1 - n) with 0 by lia. simpl. do 2 f_equal. lia.
  - rewrite !skipn_app, skipn_skipn, !skipn_length. f_equal; f_equal; lia.
Qed.

Section Stm.
Context (c : stcfg).
Hypothesis Hc : st_cfg_ok c.

(** Slot reached from [x < 2 * sz]. *)
Definition wx (x : nat) : nat := if x <? sz c then x else x - sz c.

Record st_rel (s : stm) (l : list N) : Prop := mkSR {
  sr_buf : length (sb_buf s) = sz c;
  sr_qty : sb_qty s = length l;
  sr_cap : length l <= sz c;
  sr_out : sb_out s < sz c;
  sr_in : sb_in s = wx (sb_out s + length l);
  sr_item : forall i b, nth_error l i = Some b -> nth_error (sb_buf s) (wx (sb_out s + i)) = Some b }.

Lemma wx_lt x : x < 2 * sz c -> wx x < sz c.
Proof. unfold wx. destruct (Nat.ltb_spec x (sz c)); lia. Qed.

Lemma wx_wrap x : x <= sz c -> st_wrap c x = wx x.
Proof.
  unfold st_wrap, wx. intros. destruct (Nat.leb_spec (sz c) x), (Nat.ltb_spec x (sz c)); lia.
Qed.

Lemma qsub_small a b : b <= a -> a < qmod c -> qsub c a b = a - b.
Proof.
  intros H1 H2. unfold qsub. replace (a + qmod c - b) with (a - b + 1 * qmod c) by lia.
  rewrite Nat.mod_add by lia. apply Nat.mod_small. lia.
Qed.

Lemma nth_lastn n (l : list N) i : nth_error (lastn n l) i = nth_error l (length l - n + i).
Proof.
  unfold lastn. generalize (length l - n) as k. intros k. revert l.
  induction k as [|k IH]; intros l; auto. destruct l; simpl; [destruct i; reflexivity | apply IH].
Qed.

Lemma st_put_rel s l b : st_rel s l ->
  exists s', st_put c s b = Ok s' /\ st_rel s' (lastn (sz c) (l ++ [b])).
Proof.
  intros []. destruct Hc as [Hc1 Hc2]. unfold st_put.
  assert (Hin : sb_in s < sz c) by (rewrite sr_in0; apply wx_lt; lia).
  rewrite wr_lt by lia. cbn [bind].
  rewrite sr_qty0. rewrite Nat.mod_small by lia.
  assert (Hi : (if sb_in s + 1 =? sz c then 0 else sb_in s + 1) = wx (sb_in s + 1)).
  { unfold wx. destruct (Nat.eqb_spec (sb_in s + 1) (sz c)), (Nat.ltb_spec (sb_in s + 1) (sz c)); lia. }
  rewrite Hi.
  destruct (Nat.leb_spec (sz c) (length l + 1)) as [Hle|Hlt].
  - rewrite Nat.mod_small by lia. eexists. split; [reflexivity|].
    assert (HL : length (lastn (sz c) (l ++ [b])) = sz c) by (rewrite lastn_len, app_length; simpl; lia).
    assert (Ho : wx (sb_in s + 1) < sz c) by (apply wx_lt; lia).
    constructor; cbn [sb_buf sb_in sb_out sb_qty]; auto; try lia.
    + now rewrite length_upd.
    + rewrite HL. unfold wx at 2. destruct (Nat.ltb_spec (wx (sb_in s + 1) + sz c) (sz c)); lia.
    + intros i x Hx. pose proof (nth_some_lt _ _ _ Hx) as Hil. rewrite HL in Hil.
      rewrite nth_lastn, app_length in Hx. simpl in Hx.
      destruct (Nat.lt_ge_cases (length l + 1 - sz c + i) (length l)) as [Hk|Hk].
      * rewrite nth_error_app1 in Hx by auto. apply sr_item0 in Hx.
        assert (E : wx (wx (sb_in s + 1) + i) = wx (sb_out s + (length l + 1 - sz c + i))).
        { rewrite sr_in0. unfold wx.
          repeat match goal with |- context [?a <? ?b] => destruct (Nat.ltb_spec a b) end; lia. }
        rewrite E. rewrite nth_upd_ne; auto.
        rewrite sr_in0. unfold wx.
          repeat match goal with |- context [?a <? ?b] => destruct (Nat.ltb_spec a b) end; lia.
      * rewrite nth_error_app2 in Hx by auto.
        assert (length l + 1 - sz c + i - length l = 0) by lia. rewrite H in Hx. injection Hx as <-.
        replace (wx (wx (sb_in s + 1) + i)) with (sb_in s); [apply nth_upd_eq; lia|].
        assert (i = sz c - 1) by lia. subst i. unfold wx.
          repeat match goal with |- context [?a <? ?b] => destruct (Nat.ltb_spec a b) end; lia.
  - eexists. split; [reflexivity|].
    rewrite lastn_all by (rewrite app_length; simpl; lia).
    constructor; cbn [sb_buf sb_in sb_out sb_qty]; rewrite ?app_length; auto; simpl; try lia.
    + now rewrite length_upd.
    + rewrite sr_in0. unfold wx.
      repeat match goal with |- context [?a <? ?b] => destruct (Nat.ltb_spec a b) end; lia.
    + intros i x Hx. pose proof (nth_some_lt _ _ _ Hx) as Hil. rewrite app_length in Hil; simpl in Hil.
      destruct (Nat.lt_ge_cases i (length l)) as [Hk|Hk].
      * rewrite nth_error_app1 in Hx by auto. apply sr_item0 in Hx.
        rewrite nth_upd_ne; auto. rewrite sr_in0. unfold wx.
        repeat match goal with |- context [?a <? ?b] => destruct (Nat.ltb_spec a b) end; lia.
      * rewrite nth_error_app2 in Hx by auto. assert (i = length l) by lia. subst i.
        rewrite Nat.sub_diag in Hx. injection Hx as <-. rewrite sr_in0. apply nth_upd_eq.
        rewrite sr_buf0. apply wx_lt. lia.
Qed.

Lemma st_init_rel buf : length buf = sz c -> exists s, st_init c buf = Ok s /\ st_rel s [FLG].
Proof.
  intros HL. destruct Hc as [Hc1 Hc2]. unfold st_init.
  destruct (st_put_rel (mkStm buf 0 0 0) [] FLG) as (s & E & R).
  - constructor; simpl; auto; try lia. + unfold wx. destruct (Nat.ltb_spec 0 (sz c)); lia.
    + intros [|i]; discriminate.
  - exists s. split; auto. rewrite lastn_all in R by (simpl; lia). exact R.
Qed.

(** Dropping the [k] oldest bytes. *)
Lemma st_drop_rel s l k : st_rel s l -> k <= length l -> sb_out s + k <= sz c ->
  st_rel (mkStm (sb_buf s) (sb_in s) (st_wrap c (sb_out s + k)) (qsub c (sb_qty s) k)) (skipn k l).
Proof.
  intros [] Hk Ho. destruct Hc as [Hc1 Hc2]. rewrite wx_wrap by auto.
  rewrite qsub_small by lia.
  constructor; cbn [sb_buf sb_in sb_out sb_qty]; rewrite ?skipn_length; auto; try lia.
  - apply wx_lt. lia.
  - rewrite sr_in0. unfold wx.
    repeat match goal with |- context [?a <? ?b] => destruct (Nat.ltb_spec a b) end; lia.
  - intros i b Hb.
    assert (Hb2 : nth_error l (k + i) = Some b).
    { clear - Hb. revert l Hb. induction k as [|k IH]; intros [|a l] Hb; simpl in *; auto.
      destruct i; discriminate. }
    pose proof (nth_some_lt _ _ _ Hb2). apply sr_item0 in Hb2. rewrite <- Hb2. f_equal. unfold wx.
    repeat match goal with |- context [?a <? ?b] => destruct (Nat.ltb_spec a b) end; lia.
Qed.

(** The [k] oldest bytes, when they do not wrap. *)
Lemma st_peek s l k : st_rel s l -> k <= length l -> sb_out s + k <= sz c ->
  firstn k (skipn (sb_out s) (sb_buf s)) = firstn k l.
Proof.
  intros [] Hk Ho. apply list_eq_nth. intros i.
  assert (G : forall (A : Type) (x : list A) n j, nth_error (firstn n x) j = if j <? n then nth_error x j else None).
  { clear. intros A x n. revert x. induction n as [|n IH]; intros x j; simpl.
    - destruct j; reflexivity.
    - destruct x as [|a x]; [destruct j; simpl; auto; destruct (S j <? S n); reflexivity|].
      destruct j; simpl; auto. rewrite IH. reflexivity. }
  assert (G2 : forall (A : Type) n (x : list A) j, nth_error (skipn n x) j = nth_error x (n + j)).
  { clear. intros A n. induction n as [|n IH]; intros [|a x] j; simpl; auto. destruct j; auto. }
  rewrite !G, G2. destruct (Nat.ltb_spec i k) as [Hi|Hi]; auto.
  destruct (nth_error l i) as [b|] eqn:Eb.
  - apply sr_item0 in Eb. rewrite <- Eb. f_equal. unfold wx.
    destruct (Nat.ltb_spec (sb_out s + i) (sz c)); lia.
  - apply nth_error_None in Eb. lia.
Qed.

Lemma st_whole_spec s l dest m : st_rel s l -> m < qmod c -> m <= length dest ->
  let k := Nat.min m (length l) in
  exists s', st_whole c s dest m = Ok (s', (firstn k l ++ skipn k dest, k)) /\ st_rel s' (skipn k l).
Proof.
  intros R Hm Hd k. pose proof R as R0. destruct R. destruct Hc as [Hc1 Hc2]. unfold st_whole.
  rewrite sr_qty0. destruct (Nat.eqb_spec (length l) 0) as [E0|E0].
  { destruct l; [|discriminate]. simpl in k. unfold k. rewrite Nat.min_0_r. simpl. eauto. }
  rewrite Nat.mod_small by lia.
  assert (E1 : (if length l <=? m then length l else m) = k)
    by (unfold k; destruct (Nat.leb_spec (length l) m); lia).
  rewrite E1.
  set (n := if m <? _ then m else _).
  assert (Hn : n = Nat.min k (sz c - sb_out s)).
  { unfold n, k. destruct (Nat.ltb_spec (length l) (sz c - sb_out s));
    repeat match goal with |- context [?a <? ?b] => destruct (Nat.ltb_spec a b) end; lia. }
  clearbody n. assert (Hkm : k <= length l /\ k <= m) by (unfold k; lia). clearbody k. clear E1.
  cbn [st_whole_loop]. unfold st_memcpy.
  replace (sb_out s + n <=? length (sb_buf s)) with true by (symmetry; apply Nat.leb_le; lia).
  replace (0 + n <=? length dest) with true by (symmetry; apply Nat.leb_le; lia).
  cbn [andb bind firstn app Nat.add].
  rewrite (st_peek s l n) by (auto; lia).
  pose proof (st_drop_rel s l n R0 ltac:(lia) ltac:(lia)) as R1.
  rewrite (Nat.mod_small n) by lia. rewrite (qsub_small k n) by lia.
  destruct (Nat.eqb_spec (k - n) 0) as [Ek|Ek].
  - assert (k = n) by lia. subst k. eexists. split; [reflexivity|]. exact R1.
  - set (s1 := mkStm _ _ _ _) in *. set (dest1 := firstn n l ++ skipn n dest) in *.
    assert (Hd1 : length dest1 = length dest)
      by (unfold dest1; rewrite app_length, firstn_length, skipn_length; lia).
    assert (Ho1 : sb_out s1 = 0).
    { unfold s1. cbn [sb_out]. unfold st_wrap. destruct (Nat.leb_spec (sz c) (sb_out s + n)); lia. }
    replace (sb_out s1 + (k - n) <=? length (sb_buf s1)) with true
      by (symmetry; apply Nat.leb_le; unfold s1 at 2; cbn [sb_buf]; lia).
    replace (n + (k - n) <=? length dest1) with true by (symmetry; apply Nat.leb_le; lia).
    cbn [andb bind].
    rewrite (st_peek s1 (skipn n l) (k - n)) by (auto; rewrite ?skipn_length; lia).
    replace (n + (k - n)) with k by lia.
    rewrite (Nat.mod_small k) by lia. rewrite (qsub_small (k - n) (k - n)) by lia. rewrite Nat.sub_diag. cbn [Nat.eqb].
    pose proof (st_drop_rel s1 (skipn n l) (k - n) R1 ltac:(rewrite skipn_length; lia) ltac:(lia)) as R2.
    eexists. split.
    + assert (E5 : firstn n dest1 ++ firstn (k - n) (skipn n l) ++ skipn k dest1 = firstn k l ++ skipn k dest).
      { unfold dest1. rewrite app_assoc. f_equal.
        - rewrite firstn_app, firstn_firstn, firstn_length. rewrite Nat.min_id.
          replace (n - Nat.min n (length l)) with 0 by lia. simpl. rewrite app_nil_r.
          rewrite <- (firstn_skipn n l) at 3. rewrite firstn_app, firstn_firstn, firstn_length.
          replace (Nat.min k n) with n by lia. f_equal. f_equal. lia.
        - rewrite skipn_app, firstn_length. rewrite (skipn_all2 (firstn n l)) by (rewrite firstn_length; lia).
          simpl. rewrite skipn_skipn. f_equal. lia. }
      rewrite E5. reflexivity.
    + rewrite skipn_skipn in R2. replace (k - n + n) with k in R2 by lia. exact R2.
Qed.

Lemma st_step_sim s l o : st_rel s l -> stop_ok c o ->
  exists s' r l', st_step c s o = Ok (s', r) /\ st_rel s' l' /\ st_spec (sz c) l o r l'.
Proof.
  intros R Ho. destruct Hc as [Hc1 Hc2]. destruct o as [b| |n|n dest]; cbn [st_step].
  - destruct (st_put_rel s l b R) as (s' & E & R'). rewrite E. cbn [bind].
    do 3 eexists. split; [reflexivity|]. split; [exact R'|constructor].
  - unfold st_get. rewrite (sr_qty _ _ R). destruct l as [|a l].
    + simpl. do 3 eexists. split; [reflexivity|]. split; [exact R|constructor].
    + cbn [length Nat.eqb].
      pose proof (st_drop_rel s (a :: l) 1 R ltac:(simpl; lia) ltac:(pose proof (sr_out _ _ R); lia)) as R1.
      assert (Ea : rd (sb_buf s) (sb_out s) = Ok a).
      { apply rd_ok. pose proof (sr_item _ _ R 0 a eq_refl) as H. rewrite <- H. f_equal.
        unfold wx. pose proof (sr_out _ _ R). destruct (Nat.ltb_spec (sb_out s + 0) (sz c)); lia. }
      rewrite Ea. cbn [bind]. rewrite (sr_qty _ _ R) in R1.
      do 3 eexists. split; [reflexivity|]. split; [exact R1|constructor].
  - unfold st_get_block. rewrite (sr_qty _ _ R). simpl in Ho.
    destruct (Nat.eqb_spec (length l) 0) as [E0|E0].
    + destruct l; [|discriminate]. do 3 eexists. split; [reflexivity|]. split; [exact R|].
      apply SpBlock0.
    + pose proof (sr_out _ _ R). rewrite Nat.mod_small by lia.
      set (k := if n <? _ then n else _).
      assert (Hk : k = Nat.min n (Nat.min (length l) (sz c - sb_out s))).
      { unfold k. destruct (Nat.ltb_spec (length l) (sz c - sb_out s));
        repeat match goal with |- context [?a <? ?b] => destruct (Nat.ltb_spec a b) end; lia. }
      clearbody k. unfold peek.
      replace (sb_out s + k <=? length (sb_buf s)) with true
        by (symmetry; apply Nat.leb_le; pose proof (sr_buf _ _ R); lia).
      cbn [bind]. rewrite (st_peek s l k) by (auto; lia).
      pose proof (st_drop_rel s l k R ltac:(lia) ltac:(lia)) as R1. rewrite (sr_qty _ _ R) in R1.
      do 3 eexists. split; [reflexivity|]. split; [exact R1|]. apply SpBlock; [intros ->; cbn in E0; lia | ..]; lia.
  - destruct Ho as [Ho1 Ho2]. destruct (st_whole_spec s l dest n R Ho1 Ho2) as (s' & E & R').
    rewrite E. cbn [bind]. do 3 eexists. split; [reflexivity|]. split; [exact R'|]. now constructor.
Qed.

Lemma st_run_sim ops : forall s l, st_rel s l -> Forall (stop_ok c) ops ->
  exists s' rs l', run (st_step c) s ops = Ok (s', rs) /\ st_rel s' l' /\ st_specs (sz c) l ops rs l'.
Proof.
  induction ops as [|o ops IH]; intros s l R Ho; cbn [run].
  - do 3 eexists. split; [reflexivity|]. split; [exact R|constructor].
  - inversion Ho; subst. destruct (st_step_sim s l o R) as (s1 & r & l1 & E1 & R1 & S1); auto.
    rewrite E1. cbn [bind]. destruct (IH s1 l1 R1) as (s2 & rs & l2 & E2 & R2 & S2); auto.
    rewrite E2. cbn [bind]. do 3 eexists. split; [reflexivity|]. split; [exact R2|]. econstructor; eauto.
Qed.

Lemma st_rel_unique s l1 l2 : st_rel s l1 -> st_rel s l2 -> l1 = l2.
Proof.
  intros [] []. apply list_eq_nth. intros i.
  destruct (nth_error l1 i) as [b|] eqn:E1.
  - destruct (nth_error l2 i) as [b2|] eqn:E2.
    + apply sr_item0 in E1. apply sr_item1 in E2. congruence.
    + apply nth_error_None in E2. apply nth_some_lt in E1. lia.
  - destruct (nth_error l2 i) as [b2|] eqn:E2; auto. apply nth_error_None in E1. apply nth_some_lt in E2. lia.
Qed.

Lemma st_puts_rel bs : forall s l, st_rel s l ->
  exists s' rs, run (st_step c) s (puts bs) = Ok (s', rs) /\ st_rel s' (lastn (sz c) (l ++ bs)).
Proof.
  induction bs as [|b bs IH]; intros s l R; cbn [puts map run].
  - do 2 eexists. split; [reflexivity|]. rewrite app_nil_r. rewrite lastn_all by apply R. exact R.
  - destruct (st_put_rel s l b R) as (s1 & E1 & R1). cbn [st_step]. rewrite E1. cbn [bind].
    destruct (IH _ _ R1) as (s2 & rs & E2 & R2). fold (puts bs). rewrite E2. cbn [bind].
    do 2 eexists. split; [reflexivity|]. rewrite lastn_app1, <- app_assoc in R2. exact R2.
Qed.

(** *** Histories *)
Lemma hist_stream buf ops : length buf = sz c -> Forall (stop_ok c) ops ->
  exists s0 s rs l, st_init c buf = Ok s0 /\ run (st_step c) s0 ops = Ok (s, rs) /\
    st_specs (sz c) [FLG] ops rs l /\ length (sb_buf s) = sz c.
Proof.
  intros HL Ho. destruct (st_init_rel buf HL) as (s0 & E0 & R0).
  destruct (st_run_sim ops s0 _ R0 Ho) as (s & rs & l & E & R & Sp).
  exists s0, s, rs, l. repeat split; auto. apply R.
Qed.

Lemma hist_recent buf bs dest : length buf = sz c -> sz c <= length dest ->
  exists s0 s rs s', st_init c buf = Ok s0 /\ run (st_step c) s0 (puts bs) = Ok (s, rs) /\
    let l := lastn (sz c) (FLG :: bs) in
    st_whole c s dest (sz c) = Ok (s', (l ++ skipn (length l) dest, length l)).
Proof.
  intros HL Hd. destruct Hc as [Hc1 Hc2]. destruct (st_init_rel buf HL) as (s0 & E0 & R0).
  destruct (st_puts_rel bs s0 _ R0) as (s & rs & E & R). cbn [app] in R.
  destruct (st_whole_spec s _ dest (sz c) R ltac:(lia) Hd) as (s' & E' & _).
  rewrite Nat.min_r in E' by apply R. rewrite firstn_all in E'.
  exists s0, s, rs, s'. auto.
Qed.

Lemma hist_reads buf ops n dest : length buf = sz c -> Forall (stop_ok c) ops ->
  n < qmod c -> n <= length dest ->
  exists s0 s rs l, st_init c buf = Ok s0 /\ run (st_step c) s0 ops = Ok (s, rs) /\
    st_specs (sz c) [FLG] ops rs l /\
    (exists s' b, st_step c s SGet = Ok (s', SOByte b) /\ b = hd_error l) /\
    (exists s' k, st_step c s (SBlock n) = Ok (s', SOBlock (match l with [] => None | _ => Some (firstn k l) end) k) /\
       k <= n /\ k <= length l /\ (0 < n -> l <> [] -> 0 < k)) /\
    (exists s', st_step c s (SWhole n dest) =
       Ok (s', SOWhole (Nat.min n (length l)) (firstn n l ++ skipn (Nat.min n (length l)) dest))).
Proof.
  intros HL Ho Hn Hd. destruct (st_init_rel buf HL) as (s0 & E0 & R0).
  destruct (st_run_sim ops s0 _ R0 Ho) as (s & rs & l & E & R & Sp).
  exists s0, s, rs, l. split; [exact E0|]. split; [exact E|]. split; [exact Sp|].
  split; [|split].
  - destruct (st_step_sim s l SGet R I) as (s' & r & l' & E' & _ & S'). rewrite E'.
    inversion S'; subst; eauto.
  - destruct (st_step_sim s l (SBlock n) R Hn) as (s' & r & l' & E' & _ & S'). rewrite E'.
    inversion S' as [| | | m | l0 m k Hl | ]; subst; [exists s', 0; cbn; split; [reflexivity|]; split; [lia|]; split; [lia|]; congruence|].
    exists s', k. destruct l; [congruence | auto].
  - destruct (st_step_sim s l (SWhole n dest) R (conj Hn Hd)) as (s' & r & l' & E' & _ & S'). rewrite E'.
    inversion S'; subst. exists s'. do 3 f_equal. f_equal.
    destruct (Nat.le_ge_cases n (length l)); [now rewrite Nat.min_l|].
    rewrite Nat.min_r by auto. now rewrite !firstn_all2 by auto.
Qed.
End Stm.
