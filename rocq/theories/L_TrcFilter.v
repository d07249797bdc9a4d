(** Proofs: the filters are independent switches. *)
From Verif Require Import Base L_Base M_BitTbl L_RdyGrp M_TrcFilter S_TrcFilter.
Local Open Scope N_scope.

(** Bit number [k] of a table. *)
Definition tb (tbl : list N) (k : N) : bool := N.testbit (nth (N.to_nat (k / 8)) tbl 0) (k mod 8).

Lemma mask_ok x : x < 8 -> getBitMask x = Ok (2 ^ x).
Proof. intros H. rewrite getBitMask_spec. apply N.ltb_lt in H. now rewrite H. Qed.

Lemma land7 x : N.land x 7 = x mod 8.
Proof. change 7 with (N.ones 3). now rewrite N.land_ones. Qed.
Lemma shr3 x : N.shiftr x 3 = x / 8.
Proof. rewrite N.shiftr_div_pow2. reflexivity. Qed.
Lemma mod8 x : x mod 8 < 8.
Proof. apply N.mod_lt. discriminate. Qed.

Lemma test_mask b x : negb (N.land b (2 ^ x) =? 0) = N.testbit b x.
Proof.
  destruct (N.testbit b x) eqn:E.
  - apply negb_true_iff, N.eqb_neq. intros H. assert (HT : N.testbit (N.land b (2 ^ x)) x = false) by (rewrite H; apply N.bits_0).
    rewrite N.land_spec, E, N.pow2_bits_true in HT. discriminate.
  - apply negb_false_iff, N.eqb_eq. apply N.bits_inj_0. intros n. rewrite N.land_spec.
    destruct (N.eq_dec n x) as [->|H]; [now rewrite E|]. rewrite N.pow2_bits_false by auto. apply andb_false_r.
Qed.

Lemma set_one_spec b on x : x < 8 -> exists b', setOneFilter b (ctl on) x = Ok b' /\
  forall j, N.testbit b' j = if j =? x then on else N.testbit b j.
Proof.
  intros H. unfold setOneFilter. rewrite mask_ok by auto. cbn [bind]. eexists. split; [reflexivity|]. intros j.
  destruct (N.eqb_spec j x) as [->|Hne]; destruct on; cbn [ctl FILTER_OFF N.eqb Pos.eqb].
  - rewrite N.lor_spec, N.pow2_bits_true. apply orb_true_r.
  - rewrite N.ldiff_spec, N.pow2_bits_true. apply andb_false_r.
  - rewrite N.lor_spec, N.pow2_bits_false by auto. apply orb_false_r.
  - rewrite N.ldiff_spec, N.pow2_bits_false by auto. apply andb_true_r.
Qed.

Lemma nth_upd_d (l : list N) i v j : (i < length l)%nat -> nth j (upd l i v) 0 = if (j =? i)%nat then v else nth j l 0.
Proof.
  revert i j; induction l as [|a l IH]; intros [|i] [|j] H; simpl in *; try lia; auto.
  apply IH. lia.
Qed.

Lemma rd_nth (l : list N) i : (i < length l)%nat -> rd l i = Ok (nth i l 0).
Proof. intros H. apply rd_ok. now apply nth_error_nth'. Qed.
Lemma wr_upd (l : list N) i v : (i < length l)%nat -> wr l i v = Ok (upd l i v).
Proof. intros H. unfold wr. apply Nat.ltb_lt in H. now rewrite H. Qed.

Lemma slot_eq j k : j / 8 = k / 8 -> j mod 8 = k mod 8 -> j = k.
Proof. intros H1 H2. rewrite (N.div_mod j 8), (N.div_mod k 8), H1, H2 by discriminate. reflexivity. Qed.

Lemma tb_upd tbl k b' on : k < 8 * N.of_nat (length tbl) ->
  (forall j, N.testbit b' j = if j =? k mod 8 then on else N.testbit (nth (N.to_nat (k / 8)) tbl 0) j) ->
  forall j, tb (upd tbl (N.to_nat (k / 8)) b') j = if j =? k then on else tb tbl j.
Proof.
  intros Hk Hb j. unfold tb. assert (k / 8 < N.of_nat (length tbl)) by (apply N.div_lt_upper_bound; lia).
  rewrite nth_upd_d by lia. destruct (Nat.eqb_spec (N.to_nat (j / 8)) (N.to_nat (k / 8))) as [E|E].
  - assert (Ej : j / 8 = k / 8) by lia. rewrite Hb, Ej. destruct (N.eqb_spec (j mod 8) (k mod 8)) as [E2|E2].
    + rewrite (slot_eq j k Ej E2), N.eqb_refl. reflexivity.
    + destruct (N.eqb_spec j k) as [->|]; [congruence|reflexivity].
  - destruct (N.eqb_spec j k) as [->|]; [congruence|reflexivity].
Qed.

(** *** The loop *)
Lemma all_loop_spec cc size : size < 256 -> forall n fuel tbl ft ix,
  N.of_nat n = size - ix -> ix <= size -> (n < fuel)%nat -> (ft + n <= length tbl)%nat ->
  exists tbl', fl_all_loop fuel tbl ft ix cc size = Ok tbl' /\ length tbl' = length tbl /\
    forall j, nth j tbl' 0 = if (ft <=? j)%nat && (j <? ft + n)%nat then cc else nth j tbl 0.
Proof.
  intros Hs n. induction n as [|n IH]; intros [|fuel] tbl ft ix Hn Hix Hf HL; try lia; cbn [fl_all_loop].
  - replace (ix <? size) with false by (symmetry; apply N.ltb_ge; lia). exists tbl. repeat split; auto.
    intros j. destruct (Nat.leb_spec ft j); cbn [andb]; auto. destruct (Nat.ltb_spec j (ft + 0)); [lia|reflexivity].
  - replace (ix <? size) with true by (symmetry; apply N.ltb_lt; lia). rewrite wr_upd by lia. cbn [bind].
    rewrite u8_small by lia.
    destruct (IH fuel (upd tbl ft cc) (S ft) (ix + 1)) as (tbl' & E & L & Hj); try lia; [rewrite length_upd; lia|].
    exists tbl'. split; [exact E|]. rewrite length_upd in L. split; [exact L|]. intros j. rewrite Hj, nth_upd_d by lia.
    destruct (Nat.eqb_spec j ft) as [->|Hne].
    + replace (S ft <=? ft)%nat with false by (symmetry; apply Nat.leb_gt; lia). cbn [andb].
      rewrite Nat.leb_refl. replace (ft <? ft + S n)%nat with true by (symmetry; apply Nat.ltb_lt; lia). reflexivity.
    + assert (EB : (S ft <=? j)%nat && (j <? S ft + n)%nat = (ft <=? j)%nat && (j <? ft + S n)%nat).
      { destruct (Nat.leb_spec (S ft) j), (Nat.leb_spec ft j), (Nat.ltb_spec j (S ft + n)), (Nat.ltb_spec j (ft + S n)); auto; lia. }
      now rewrite EB.
Qed.

Lemma bits_ff x : x < 8 -> N.testbit 0xFF x = true.
Proof. intros H. change 0xFF with (N.ones 8). now apply N.ones_spec_low. Qed.

Lemma set_all_spec tbl off on size : size < 256 -> (off + N.to_nat size <= length tbl)%nat ->
  exists tbl', setAllFilters tbl off (ctl on) size = Ok tbl' /\ length tbl' = length tbl /\
    forall j, tb tbl' j = if (N.of_nat off <=? j / 8) && (j / 8 <? N.of_nat off + size) then on else tb tbl j.
Proof.
  intros Hs HL. unfold setAllFilters.
  destruct (all_loop_spec (if ctl on =? FILTER_OFF then 0xFF else 0) size Hs (N.to_nat size) (S (S (length tbl))) tbl off 0)
    as (tbl' & E & L & Hj); try lia.
  exists tbl'. split; [exact E|]. split; [exact L|]. intros j. unfold tb. rewrite Hj.
  assert (EB : (off <=? N.to_nat (j / 8))%nat && (N.to_nat (j / 8) <? off + N.to_nat size)%nat =
               (N.of_nat off <=? j / 8) && (j / 8 <? N.of_nat off + size)).
  { destruct (Nat.leb_spec off (N.to_nat (j / 8))), (N.leb_spec (N.of_nat off) (j / 8)); try lia; cbn [andb]; auto.
    all: destruct (Nat.ltb_spec (N.to_nat (j / 8)) (off + N.to_nat size)), (N.ltb_spec (j / 8) (N.of_nat off + size)); auto; lia. }
  rewrite EB. clear EB. destruct ((N.of_nat off <=? j / 8) && (j / 8 <? N.of_nat off + size)); auto. destruct on; cbn [ctl FILTER_OFF N.eqb Pos.eqb].
  - apply bits_ff, mod8.
  - apply N.bits_0.
Qed.

Lemma is_off_spec c tbl off k : k < fl_idm c -> (off + N.to_nat (k / 8) < length tbl)%nat ->
  isOffFilter c tbl off k = Ok (tb tbl (8 * N.of_nat off + k)).
Proof.
  intros Hk HL. unfold isOffFilter. rewrite N.mod_small by auto. rewrite shr3, land7.
  rewrite rd_nth by auto. cbn [bind]. rewrite mask_ok by apply mod8. cbn [bind]. rewrite test_mask. f_equal. unfold tb.
  replace (8 * N.of_nat off + k) with (k + N.of_nat off * 8) by lia.
  rewrite N.div_add, N.mod_add by discriminate. do 2 f_equal. lia.
Qed.

(** *** Groups *)
Definition goff (g : N) : N := fst (nth (N.to_nat g) trcgmtbl (0, 0)).
Definition grange (g : N) : N := snd (nth (N.to_nat g) trcgmtbl (0, 0)).

Lemma g_cases g : g < 8 -> g = 0 \/ g = 1 \/ g = 2 \/ g = 3 \/ g = 4 \/ g = 5 \/ g = 6 \/ g = 7.
Proof. lia. Qed.
Ltac gcase H := apply g_cases in H; destruct H as [->|[->|[->|[->|[->|[->|[->| ->]]]]]]].

Lemma gm_rd g : g < 8 -> rd trcgmtbl (N.to_nat g) = Ok (goff g, grange g).
Proof. intros H. gcase H; reflexivity. Qed.
Lemma g_events g : g < 8 -> grp_events g = 8 * grange g.
Proof. intros H. gcase H; reflexivity. Qed.
Lemma g_fit g : g < 8 -> goff g + grange g <= 17 /\ grange g <= 4.
Proof. intros H. gcase H; vm_compute; split; discriminate. Qed.

Lemma g_disj g g' x : g < 8 -> g' < 8 -> goff g <= x < goff g + grange g -> goff g' <= x < goff g' + grange g' -> g = g'.
Proof.
  intros H H'. gcase H; gcase H'; auto;
    match goal with |- goff ?a <= _ < _ -> goff ?b <= _ < _ -> _ =>
      let v1 := eval vm_compute in (goff a) in let v2 := eval vm_compute in (goff b) in
      let w1 := eval vm_compute in (grange a) in let w2 := eval vm_compute in (grange b) in
      change (goff a) with v1; change (goff b) with v2; change (grange a) with w1; change (grange b) with w2 end; lia.
Qed.

Lemma g_byte g e : ev_ok g e -> goff g <= (8 * goff g + e) / 8 < goff g + grange g /\
  (8 * goff g + e) / 8 = goff g + e / 8 /\ (8 * goff g + e) mod 8 = e mod 8.
Proof.
  intros [Hg He]. rewrite g_events in He by auto.
  replace (8 * goff g + e) with (e + goff g * 8) by lia. rewrite N.div_add, N.mod_add by discriminate.
  assert (e / 8 < grange g) by (apply N.div_lt_upper_bound; lia). lia.
Qed.

Lemma g_inj g e g' e' : ev_ok g e -> ev_ok g' e' -> 8 * goff g + e = 8 * goff g' + e' -> g = g' /\ e = e'.
Proof.
  intros H H' E. destruct (g_byte g e H) as (B1 & _), (g_byte g' e' H') as (B2 & _). rewrite <- E in B2.
  assert (g = g') by (eapply g_disj; eauto; try apply H; apply H'). subst. split; auto. lia.
Qed.

(** *** Relation with the switches *)
Section Rel.
Context (c : fcfg) (nsig nsma : nat).
Hypothesis Hc : fl_cfg_ok c nsig nsma.

Record f_rel (f : flt) (w : fsw) : Prop := {
  fr_le : length (f_evt f) = EVT_BYTES;
  fr_ls : length (f_sig f) = nsig;
  fr_lm : length (f_sma f) = nsma;
  fr_g : forall g, g < 8 -> N.testbit (f_grp f) g = w_grp w g;
  fr_e : forall g e, ev_ok g e -> tb (f_evt f) (8 * goff g + e) = w_evt w g e;
  fr_s : forall s, s < 8 * N.of_nat nsig -> tb (f_sig f) s = w_sig w s;
  fr_m : forall p, p < 8 * N.of_nat nsma -> tb (f_sma f) p = w_sma w p }.

Lemma nth_repeat0 n i : nth i (repeat 0 n) 0 = 0.
Proof. revert i; induction n; intros [|i]; simpl; auto. Qed.
Lemma tb_zero n k : tb (repeat 0 n) k = false.
Proof. unfold tb. rewrite nth_repeat0. apply N.bits_0. Qed.

Lemma f_init_rel : f_rel (fl_init nsig nsma) w_init.
Proof.
  constructor; cbn [fl_init f_evt f_sig f_sma f_grp w_init w_grp w_evt w_sig w_sma]; intros;
    try apply repeat_length; try apply tb_zero. apply N.bits_0.
Qed.

Lemma id_ok g e : ev_ok g e -> evid c g e < fl_idm c /\ getGrp c (evid c g e) = g /\ getEvt c (evid c g e) = e.
Proof.
  intros [Hg He]. assert (HE : e < 32).
  { rewrite g_events in He by auto. destruct (g_fit g Hg). lia. }
  assert (HI : evid c g e < fl_idm c /\ e < 2 ^ fl_ev c).
  { unfold evid. destruct Hc as ([[-> ->]|[[-> ->]|[-> ->]]] & _);
      [change (2 ^ 5) with 32|change (2 ^ 8) with 256; change (2 ^ 16) with 65536
      |change (2 ^ 24) with 16777216; change (2 ^ 32) with 4294967296]; lia. }
  destruct HI as [HI HI2]. split; [exact HI|]. unfold getGrp, getEvt. rewrite N.mod_small by auto.
  unfold evid. split.
  - rewrite N.shiftr_div_pow2, N.add_comm, N.div_add by (apply N.pow_nonzero; discriminate).
    rewrite N.div_small by auto. apply u8_small. lia.
  - rewrite N.add_comm, N.mod_add by (apply N.pow_nonzero; discriminate). now apply N.mod_small.
Qed.

Lemma ldiff_all on : u8 (N.ldiff (N.lor (ctl on) ALL_FILTERS) ALL_FILTERS) = ctl on /\
  negb (N.land (N.lor (ctl on) ALL_FILTERS) ALL_FILTERS =? 0) = true /\
  u8 (N.ldiff (ctl on) ALL_FILTERS) = ctl on /\ negb (N.land (ctl on) ALL_FILTERS =? 0) = false.
Proof. destruct on; repeat split; reflexivity. Qed.

Lemma sym_one tbl k on : k < 8 * N.of_nat (length tbl) -> exists b tbl',
  rd tbl (N.to_nat (k / 8)) = Ok (nth (N.to_nat (k / 8)) tbl 0) /\
  setOneFilter (nth (N.to_nat (k / 8)) tbl 0) (ctl on) (k mod 8) = Ok b /\
  wr tbl (N.to_nat (k / 8)) b = Ok tbl' /\ length tbl' = length tbl /\
  forall j, tb tbl' j = if j =? k then on else tb tbl j.
Proof.
  intros Hk. assert (HL : k / 8 < N.of_nat (length tbl)) by (apply N.div_lt_upper_bound; lia).
  destruct (set_one_spec (nth (N.to_nat (k / 8)) tbl 0) on (k mod 8) (mod8 k)) as (b & E & Hb).
  exists b, (upd tbl (N.to_nat (k / 8)) b). split; [apply rd_nth; lia|]. split; [exact E|].
  split; [apply wr_upd; lia|]. split; [apply length_upd|]. now apply tb_upd.
Qed.

Lemma f_step_rel f w o : f_rel f w -> fop_ok nsig nsma o -> exists f', f_step c f o = Ok f' /\ f_rel f' (w_step w o).
Proof.
  intros R Ho. pose proof R as []. destruct Hc as (_ & Hs & Hm & Hs32 & Hm32 & Hs0 & Hm0).
  destruct o as [on g|on g|on|on g e|on|on s|on|on p|on]; cbn [f_step w_step fop_ok] in *.
  - unfold fl_group. rewrite u8_small by lia. unfold ALL_GROUPS.
    destruct (N.eqb_spec g 8); [lia|]. destruct (set_one_spec (f_grp f) on g Ho) as (b & E & Hb).
    rewrite E. cbn [bind]. cbn [N.eqb ECHANGE]. eexists. split; [reflexivity|].
    constructor; cbn [f_evt f_sig f_sma f_grp w_grp w_evt w_sig w_sma putFilterTable N.eqb Pos.eqb]; auto. intros x Hx. rewrite Hb, fr_g0 by auto. reflexivity.
  - unfold fl_group. rewrite u8_small by lia. unfold ALL_GROUPS.
    destruct (N.eqb_spec g 8); [lia|]. destruct (set_one_spec (f_grp f) on g Ho) as (b & E & Hb).
    rewrite E. cbn [bind]. cbn [N.eqb ECHANGE]. rewrite gm_rd by auto. cbn [bind f_evt].
    destruct (g_fit g Ho). destruct (set_all_spec (f_evt f) (N.to_nat (goff g)) on (grange g)) as (t & Et & Lt & Ht);
      [lia|rewrite fr_le0; unfold EVT_BYTES; lia|]. rewrite Et. cbn [bind].
    eexists. split; [reflexivity|]. constructor; cbn [f_evt f_sig f_sma f_grp w_grp w_evt w_sig w_sma putFilterTable N.eqb Pos.eqb]; auto; [congruence| |].
    + intros x Hx. rewrite Hb, fr_g0 by auto. reflexivity.
    + intros x y Hxy. rewrite Ht. destruct (g_byte x y Hxy) as (B & _). rewrite N2Nat.id.
      destruct (N.eqb_spec x g) as [->|Hne].
      * replace (goff g <=? (8 * goff g + y) / 8) with true by (symmetry; apply N.leb_le; lia).
        replace ((8 * goff g + y) / 8 <? goff g + grange g) with true by (symmetry; apply N.ltb_lt; lia). reflexivity.
      * destruct (N.leb_spec (goff g) ((8 * goff x + y) / 8)); cbn [andb]; auto.
        destruct (N.ltb_spec ((8 * goff x + y) / 8) (goff g + grange g)); auto.
        exfalso. apply Hne. eapply g_disj; eauto. apply Hxy.
  - unfold fl_group. change (u8 ALL_GROUPS =? ALL_GROUPS) with true. cbv iota.
    eexists. split; [reflexivity|]. constructor; cbn [f_evt f_sig f_sma f_grp w_grp w_evt w_sig w_sma putFilterTable N.eqb Pos.eqb]; auto.
    intros x Hx. destruct on; cbn [ctl FILTER_OFF N.eqb Pos.eqb]; [now apply bits_ff|apply N.bits_0].
  - destruct Ho as [Ho Hut]. destruct (id_ok g e Ho) as (HI & HG & HEv). unfold fl_event.
    rewrite N.mod_small by auto.
    assert (HA : evid c g e < ALL_EVENTS c).
    { unfold evid, ALL_EVENTS. destruct (N.eq_dec g 7) as [->|Hne]; [specialize (Hut eq_refl); lia|].
      assert (e < 2 ^ fl_ev c). { rewrite <- HEv. unfold getEvt. apply N.mod_lt. apply N.pow_nonzero; discriminate. }
      destruct Ho as [Hg _]. assert (g <= 6) by lia. assert (g * 2 ^ fl_ev c <= 6 * 2 ^ fl_ev c) by (apply N.mul_le_mono_r; auto). lia. }
    replace (evid c g e <=? ALL_EVENTS c) with true by (symmetry; apply N.leb_le; lia). rewrite rassert_true. cbn [bind].
    destruct (N.eqb_spec (evid c g e) (ALL_EVENTS c)); [lia|]. rewrite HG, HEv.
    pose proof Ho as [Hg He]. pose proof (g_byte g e Ho) as (B & B1 & B2). destruct (g_fit g Hg) as [F1 F2].
    rewrite gm_rd by auto. cbn [bind]. rewrite shr3, land7.
    assert (HM : (goff g + e / 8) mod fl_idm c = (8 * goff g + e) / 8).
    { rewrite B1. apply N.mod_small. destruct Hc as ([[_ ->]|[[_ ->]|[_ ->]]] & _); 
        [|change (2 ^ 16) with 65536|change (2 ^ 32) with 4294967296]; lia. }
    rewrite HM, <- B2.
    destruct (sym_one (f_evt f) (8 * goff g + e) on) as (b & t & E1 & E2 & E3 & L & Ht).
    { rewrite fr_le0. unfold EVT_BYTES. rewrite g_events in He by auto. lia. }
    rewrite E1. cbn [bind]. rewrite E2. cbn [bind]. rewrite E3. cbn [bind]. rewrite mask_ok by auto. cbn [bind].
    eexists. split; [reflexivity|]. constructor; cbn [f_evt f_sig f_sma f_grp w_grp w_evt w_sig w_sma putFilterTable N.eqb Pos.eqb]; auto; [congruence| |].
    + intros x Hx. destruct on; cbn [ctl FILTER_OFF N.eqb Pos.eqb].
      * rewrite N.lor_spec, fr_g0 by auto. destruct (N.eqb_spec x g) as [->|Hne]; cbn [andb].
        -- rewrite N.pow2_bits_true. apply orb_true_r.
        -- rewrite N.pow2_bits_false by auto. apply orb_false_r.
      * rewrite andb_false_r. auto.
    + intros x y Hxy. rewrite Ht. destruct (N.eqb_spec (8 * goff x + y) (8 * goff g + e)) as [E|E].
      * destruct (g_inj _ _ _ _ Hxy Ho E) as [-> ->]. now rewrite !N.eqb_refl.
      * destruct (N.eqb_spec x g) as [->|]; cbn [andb]; auto.
        destruct (N.eqb_spec y e) as [->|]; [congruence|auto].
  - unfold fl_event. assert (HA : ALL_EVENTS c mod fl_idm c = ALL_EVENTS c).
    { apply N.mod_small. unfold ALL_EVENTS. destruct Hc as ([[-> ->]|[[-> ->]|[-> ->]]] & _); reflexivity. }
    rewrite HA, N.leb_refl, rassert_true, N.eqb_refl. cbn [bind].
    destruct (set_all_spec (f_evt f) 0 on (N.of_nat EVT_BYTES)) as (t & Et & Lt & Ht);
      [unfold EVT_BYTES; lia|rewrite fr_le0; unfold EVT_BYTES; lia|]. rewrite Et. cbn [bind].
    eexists. split; [reflexivity|]. constructor; cbn [f_evt f_sig f_sma f_grp w_grp w_evt w_sig w_sma putFilterTable N.eqb Pos.eqb]; auto; [congruence| |].
    + intros x Hx. destruct on; cbn [ctl FILTER_OFF N.eqb Pos.eqb]; [now apply bits_ff|apply N.bits_0].
    + intros x y Hxy. rewrite Ht. destruct (g_byte x y Hxy) as (B & _). destruct (g_fit x (proj1 Hxy)).
      replace (N.of_nat 0 <=? (8 * goff x + y) / 8) with true by (symmetry; apply N.leb_le; lia).
      replace ((8 * goff x + y) / 8 <? N.of_nat 0 + N.of_nat EVT_BYTES) with true
        by (symmetry; apply N.ltb_lt; unfold EVT_BYTES; lia). reflexivity.
  - unfold fl_sym, getFilterTable. rewrite (N.mod_small s) by lia. change (1 <? 3) with true.
    rewrite rassert_true. cbn [bind]. change (1 =? 1) with true. cbv iota. rewrite fr_ls0.
    replace (s <=? 8 * N.of_nat nsig) with true by (symmetry; apply N.leb_le; lia). rewrite rassert_true. cbn [bind].
    destruct (ldiff_all on) as (_ & _ & E1 & E2). rewrite E1, E2. rewrite shr3, land7.
    destruct (sym_one (f_sig f) s on) as (b & t & R1 & R2 & R3 & L & Ht); [rewrite fr_ls0; auto|].
    rewrite R1. cbn [bind]. rewrite R2. cbn [bind]. rewrite R3. cbn [bind].
    eexists. split; [reflexivity|]. constructor; cbn [f_evt f_sig f_sma f_grp w_grp w_evt w_sig w_sma putFilterTable N.eqb Pos.eqb]; auto; [congruence|].
    intros x Hx. rewrite Ht. destruct (x =? s); auto.
  - unfold fl_sym, getFilterTable. change (1 <? 3) with true. rewrite N.mod_0_l by lia.
    rewrite rassert_true. cbn [bind]. change (1 =? 1) with true. cbv iota.
    replace (0 <=? 8 * N.of_nat (length (f_sig f))) with true by (symmetry; apply N.leb_le; lia). rewrite rassert_true. cbn [bind].
    destruct (ldiff_all on) as (E1 & E2 & _). rewrite E1, E2.
    destruct (set_all_spec (f_sig f) 0 on (N.of_nat (length (f_sig f)))) as (t & Et & Lt & Ht);
      [rewrite fr_ls0; lia|lia|]. rewrite Et. cbn [bind].
    eexists. split; [reflexivity|]. constructor; cbn [f_evt f_sig f_sma f_grp w_grp w_evt w_sig w_sma putFilterTable N.eqb Pos.eqb]; auto; [congruence|].
    intros x Hx. rewrite Ht. assert (x / 8 < N.of_nat nsig) by (apply N.div_lt_upper_bound; lia).
    replace (N.of_nat 0 <=? x / 8) with true by (symmetry; apply N.leb_le; lia).
    replace (x / 8 <? N.of_nat 0 + N.of_nat (length (f_sig f))) with true by (symmetry; apply N.ltb_lt; lia). reflexivity.
  - unfold fl_sym, getFilterTable. rewrite (N.mod_small p) by lia. change (2 <? 3) with true.
    rewrite rassert_true. cbn [bind]. change (2 =? 1) with false. cbv iota. rewrite fr_lm0.
    replace (p <=? 8 * N.of_nat nsma) with true by (symmetry; apply N.leb_le; lia). rewrite rassert_true. cbn [bind].
    destruct (ldiff_all on) as (_ & _ & E1 & E2). rewrite E1, E2. rewrite shr3, land7.
    destruct (sym_one (f_sma f) p on) as (b & t & R1 & R2 & R3 & L & Ht); [rewrite fr_lm0; auto|].
    rewrite R1. cbn [bind]. rewrite R2. cbn [bind]. rewrite R3. cbn [bind].
    eexists. split; [reflexivity|]. constructor; cbn [f_evt f_sig f_sma f_grp w_grp w_evt w_sig w_sma putFilterTable N.eqb Pos.eqb]; auto; [congruence|].
    intros x Hx. rewrite Ht. destruct (x =? p); auto.
  - unfold fl_sym, getFilterTable. change (2 <? 3) with true. rewrite N.mod_0_l by lia.
    rewrite rassert_true. cbn [bind]. change (2 =? 1) with false. cbv iota.
    replace (0 <=? 8 * N.of_nat (length (f_sma f))) with true by (symmetry; apply N.leb_le; lia). rewrite rassert_true. cbn [bind].
    destruct (ldiff_all on) as (E1 & E2 & _). rewrite E1, E2.
    destruct (set_all_spec (f_sma f) 0 on (N.of_nat (length (f_sma f)))) as (t & Et & Lt & Ht);
      [rewrite fr_lm0; lia|lia|]. rewrite Et. cbn [bind].
    eexists. split; [reflexivity|]. constructor; cbn [f_evt f_sig f_sma f_grp w_grp w_evt w_sig w_sma putFilterTable N.eqb Pos.eqb]; auto; [congruence|].
    intros x Hx. rewrite Ht. assert (x / 8 < N.of_nat nsma) by (apply N.div_lt_upper_bound; lia).
    replace (N.of_nat 0 <=? x / 8) with true by (symmetry; apply N.leb_le; lia).
    replace (x / 8 <? N.of_nat 0 + N.of_nat (length (f_sma f))) with true by (symmetry; apply N.ltb_lt; lia). reflexivity.
Qed.

Lemma f_run_rel ops : forall f w, f_rel f w -> Forall (fop_ok nsig nsma) ops ->
  exists f', f_run c f ops = Ok f' /\ f_rel f' (w_run w ops).
Proof.
  induction ops as [|o ops IH]; intros f w R Ho; cbn [f_run w_run fold_left]; [eauto|].
  inversion Ho; subst. destruct (f_step_rel f w o R) as (f1 & E & R1); auto. rewrite E. cbn [bind].
  apply IH; auto.
Qed.

Lemma isoff_rel f w g e : f_rel f w -> ev_ok g e -> fl_isoff c f (evid c g e) = Ok (w_grp w g && w_evt w g e).
Proof.
  intros R H. destruct (id_ok g e H) as (HI & HG & HE). unfold fl_isoff. rewrite HG, HE.
  pose proof H as [Hg He]. rewrite gm_rd by auto. cbn [bind]. rewrite mask_ok by auto. cbn [bind].
  rewrite test_mask, (fr_g _ _ R) by auto. destruct (w_grp w g); [|reflexivity]. cbn [andb].
  pose proof (g_byte g e H) as (B & B1 & _). destruct (g_fit g Hg).
  rewrite is_off_spec.
  - rewrite N2Nat.id. now rewrite (fr_e _ _ R).
  - assert (HE32 : e < 32) by (rewrite g_events in He by auto; lia).
    destruct Hc as ([[_ ->]|[[_ ->]|[_ ->]]] & _); [|change (2 ^ 16) with 65536|change (2 ^ 32) with 4294967296]; lia.
  - rewrite (fr_le _ _ R). unfold EVT_BYTES. lia.
Qed.

Lemma idm_ge : 256 <= fl_idm c.
Proof. destruct Hc as ([[_ ->]|[[_ ->]|[_ ->]]] & _); [|change (2 ^ 16) with 65536|change (2 ^ 32) with 4294967296]; lia. Qed.

Lemma sig_rel f w s : f_rel f w -> s < 8 * N.of_nat nsig -> fl_sym_isoff c f 1 s = Ok (w_sig w s).
Proof.
  intros R H. pose proof idm_ge. destruct Hc as (_ & Hs & Hm & Hs32 & Hm32 & Hs0 & Hm0).
  unfold fl_sym_isoff, getFilterTable. rewrite (N.mod_small s) by lia. change (1 <? 3) with true.
  rewrite rassert_true. cbn [bind]. change (1 =? 1) with true. cbv iota. rewrite (fr_ls _ _ R).
  replace (s <=? 8 * N.of_nat nsig) with true by (symmetry; apply N.leb_le; lia). rewrite rassert_true. cbn [bind].
  assert (s / 8 < N.of_nat nsig) by (apply N.div_lt_upper_bound; lia).
  rewrite is_off_spec; [|lia|rewrite (fr_ls _ _ R); lia]. f_equal. cbn [N.of_nat N.mul]. now apply (fr_s _ _ R).
Qed.
Lemma sma_rel f w p : f_rel f w -> p < 8 * N.of_nat nsma -> fl_sym_isoff c f 2 p = Ok (w_sma w p).
Proof.
  intros R H. pose proof idm_ge. destruct Hc as (_ & Hs & Hm & Hs32 & Hm32 & Hs0 & Hm0).
  unfold fl_sym_isoff, getFilterTable. rewrite (N.mod_small p) by lia. change (2 <? 3) with true.
  rewrite rassert_true. cbn [bind]. change (2 =? 1) with false. cbv iota. rewrite (fr_lm _ _ R).
  replace (p <=? 8 * N.of_nat nsma) with true by (symmetry; apply N.leb_le; lia). rewrite rassert_true. cbn [bind].
  assert (p / 8 < N.of_nat nsma) by (apply N.div_lt_upper_bound; lia).
  rewrite is_off_spec; [|lia|rewrite (fr_lm _ _ R); lia]. f_equal. cbn [N.of_nat N.mul]. now apply (fr_m _ _ R).
Qed.

Lemma switches ops g e : Forall (fop_ok nsig nsma) ops -> ev_ok g e ->
  exists f, f_run c (fl_init nsig nsma) ops = Ok f /\
    fl_isoff c f (evid c g e) = Ok (w_grp (w_run w_init ops) g && w_evt (w_run w_init ops) g e).
Proof.
  intros Ho He. destruct (f_run_rel ops _ _ f_init_rel Ho) as (f & E & R). exists f. split; auto. now apply isoff_rel.
Qed.

Lemma symbols ops s p : Forall (fop_ok nsig nsma) ops -> s < 8 * N.of_nat nsig -> p < 8 * N.of_nat nsma ->
  exists f, f_run c (fl_init nsig nsma) ops = Ok f /\
    fl_sym_isoff c f 1 s = Ok (w_sig (w_run w_init ops) s) /\
    fl_sym_isoff c f 2 p = Ok (w_sma (w_run w_init ops) p).
Proof.
  intros Ho Hs Hp. destruct (f_run_rel ops _ _ f_init_rel Ho) as (f & E & R). exists f. split; auto.
  split; [now apply sig_rel|now apply sma_rel].
Qed.

Lemma gate ops g e p s : Forall (fop_ok nsig nsma) ops -> ev_ok g e ->
  (fl_sma_en c = true -> p < 8 * N.of_nat nsma) -> (fl_sig_en c = true -> s <> fl_compl c -> s < 8 * N.of_nat nsig) ->
  let w := w_run w_init ops in
  exists f, f_run c (fl_init nsig nsma) ops = Ok f /\
    fl_gate c f (evid c g e) p s =
      Ok (w_grp w g && w_evt w g e && (if fl_sma_en c then w_sma w p else true) &&
          (if fl_sig_en c then (s =? fl_compl c) || w_sig w s else true)).
Proof.
  intros Ho He Hp Hs w. destruct (f_run_rel ops _ _ f_init_rel Ho) as (f & E & R). exists f. split; auto.
  fold w in R. unfold fl_gate. rewrite (isoff_rel f w) by auto. cbn [bind]. destruct (w_grp w g && w_evt w g e); [|reflexivity].
  cbn [negb andb]. destruct (fl_sma_en c); [rewrite (sma_rel f w) by auto; cbn [bind]; destruct (w_sma w p); [|reflexivity]|cbn [bind]];
    cbn [negb andb]; destruct (fl_sig_en c); auto; destruct (N.eqb_spec s (fl_compl c)); auto; cbn [orb]; apply sig_rel; auto.
Qed.
End Rel.

(** *** Negative results *)
Lemma ut_events :
  let c := mkFCfg true 5 256 256 true true 254 in
  ev_ok 7 8 /\ ev_ok 7 9 /\
  (exists f, f_step c (fl_init 6 2) (FEvent true 7 8) = Ok f /\
     forall g e, ev_ok g e -> fl_isoff c f (evid c g e) = Ok true) /\
  f_step c (fl_init 6 2) (FEvent true 7 9) = Fault (FAssert 243).
Proof.
  intros c. split; [split; reflexivity|]. split; [split; reflexivity|]. split; [|reflexivity].
  assert (HC : fl_cfg_ok c 6 2) by (split; [left; split; reflexivity|]; cbn; repeat split; lia).
  destruct (f_step_rel c 6 2 HC _ _ (FAllEvents true) (f_init_rel 6 2) I) as (f & E & R).
  exists f. split; [exact E|]. intros g e He. rewrite (isoff_rel c 6 2 HC f _ g e R He). reflexivity.
Qed.

Lemma large_slots :
  let c := mkFCfg true 5 256 65536 true true 65534 in
  forall s, 256 <= s < 320 ->
  exists f, f_run c (fl_init 40 2) [FSig true s] = Ok f /\
    fl_sym_isoff c f 1 s = Ok false /\ w_sig (w_run w_init [FSig true s]) s = true.
Proof.
  intros c s Hs. cbn [f_run f_step]. unfold fl_sym, getFilterTable.
  change (fl_fsm c) with 65536. rewrite (N.mod_small s) by lia. change (1 <? 3) with true.
  rewrite rassert_true. cbn [bind]. change (1 =? 1) with true. cbv iota.
  change (f_sig (fl_init 40 2)) with (repeat 0 40). rewrite repeat_length.
  replace (s <=? 8 * N.of_nat 40) with true by (symmetry; apply N.leb_le; lia). rewrite rassert_true. cbn [bind].
  change (u8 (N.ldiff (ctl true) ALL_FILTERS)) with (ctl true). change (N.land (ctl true) ALL_FILTERS =? 0) with true. cbn [negb].
  rewrite shr3, land7.
  destruct (sym_one (repeat 0 40) s true) as (b & t & R1 & R2 & R3 & L & Ht); [rewrite repeat_length; lia|].
  rewrite R1. cbn [bind]. rewrite R2. cbn [bind]. rewrite R3. cbn [bind].
  eexists. split; [reflexivity|]. split.
  - unfold fl_sym_isoff, getFilterTable. change (fl_fsm c) with 65536. rewrite (N.mod_small s) by lia.
    change (1 <? 3) with true. rewrite rassert_true. cbn [bind]. change (1 =? 1) with true. cbv iota.
    change (f_sig (putFilterTable (fl_init 40 2) 1 t)) with t. rewrite repeat_length in L. rewrite L.
    replace (s <=? 8 * N.of_nat 40) with true by (symmetry; apply N.leb_le; lia). rewrite rassert_true. cbn [bind].
    assert (Hm : s mod 256 = s - 256) by (symmetry; apply (N.mod_unique _ _ 1); lia).
    assert (E : isOffFilter c t 0 s = isOffFilter c t 0 (s - 256)).
    { unfold isOffFilter. change (fl_idm c) with 256. rewrite Hm. now rewrite (N.mod_small (s - 256)) by lia. }
    rewrite E, is_off_spec.
    + f_equal. cbn [N.of_nat N.mul]. rewrite Ht. destruct (N.eqb_spec (0 + (s - 256)) s); [lia|]. apply tb_zero.
    + change (fl_idm c) with 256. lia.
    + rewrite L. assert ((s - 256) / 8 < 8) by (apply N.div_lt_upper_bound; lia). lia.
  - cbn. now rewrite N.eqb_refl.
Qed.

Lemma bound_check c nsma n on : fl_asrt c = true -> 8 * N.of_nat n < fl_fsm c ->
  fl_sym c (fl_init n nsma) 1 (8 * N.of_nat n) (ctl on) = Fault (FUB UB_bounds).
Proof.
  intros Ha Hn. unfold fl_sym, getFilterTable. rewrite N.mod_small by auto. change (1 <? 3) with true.
  rewrite rassert_true. cbn [bind]. change (1 =? 1) with true. cbv iota.
  change (f_sig (fl_init n nsma)) with (repeat 0 n). rewrite repeat_length, N.leb_refl, rassert_true. cbn [bind].
  destruct (ldiff_all on) as (_ & _ & _ & E). rewrite E. rewrite shr3, N.mul_comm, N.div_mul by discriminate.
  rewrite Nat2N.id. unfold rd. replace (nth_error (repeat 0 n) n) with (@None N); [reflexivity|].
  symmetry. apply nth_error_None. rewrite repeat_length. lia.
Qed.
