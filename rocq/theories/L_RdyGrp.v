(** Proofs about the bit tables and the ready group. *)
From Verif Require Import Base L_Base M_BitTbl M_RdyGrp S_RdyGrp.
Local Open Scope N_scope.

(** * Bit tables *)

Definition N_seq (n : nat) : list N := map N.of_nat (seq 0 n).

Lemma in_N_seq n x : x < N.of_nat n -> In x (N_seq n).
Proof.
  intros H. unfold N_seq. apply in_map_iff.
  exists (N.to_nat x). split; [lia | apply in_seq; lia].
Qed.

Lemma getBitMask_spec n :
  getBitMask n = Ok (if n <? 8 then 2 ^ n else 255).
Proof.
  unfold getBitMask. destruct (N.ltb_spec n 8) as [H|H]; [|reflexivity].
  assert (F : forallb (fun n => match rd bitMaskTbl (N.to_nat n) with
                                | Ok m => m =? 2 ^ n | _ => false end)
                (N_seq 8) = true) by reflexivity.
  rewrite forallb_forall in F. specialize (F n (in_N_seq 8 n H)).
  destruct (rd bitMaskTbl (N.to_nat n)); [|discriminate].
  apply N.eqb_eq in F. now subst.
Qed.

Definition least_ok (x : N) : bool :=
  match getLeastBitSetPos x with
  | Ok p => (x =? 0) || (N.testbit x p && (p <? 8) &&
              forallb (fun q => (p <=? q) || negb (N.testbit x q)) (N_seq 8))
  | _ => false
  end.

Lemma least_ok_all : forallb least_ok (N_seq 256) = true.
Proof. vm_compute. reflexivity. Qed.

Lemma getLeastBitSetPos_spec x :
  0 < x < 256 -> exists p, getLeastBitSetPos x = Ok p /\ p < 8 /\ least_set_bit x p.
Proof.
  intros [H0 H]. pose proof least_ok_all as F. rewrite forallb_forall in F.
  specialize (F x (in_N_seq 256 x H)). unfold least_ok in F.
  destruct (getLeastBitSetPos x) as [p|]; [|discriminate].
  exists p. split; [reflexivity|].
  apply orb_true_iff in F. destruct F as [F|F]; [lia|].
  apply andb_true_iff in F. destruct F as [F F3].
  apply andb_true_iff in F. destruct F as [F1 F2].
  split; [lia|]. split; [assumption|].
  intros q Hq. rewrite forallb_forall in F3.
  specialize (F3 q (in_N_seq 8 q ltac:(lia))). lia.
Qed.

Lemma least_set_bit_unique x p q :
  least_set_bit x p -> least_set_bit x q -> p = q.
Proof.
  intros [Hp1 Hp2] [Hq1 Hq2].
  destruct (N.lt_total p q) as [H|[H|H]]; [|assumption|].
  - rewrite (Hq2 p H) in Hp1; discriminate.
  - rewrite (Hp2 q H) in Hq1; discriminate.
Qed.

(** * Bytes *)

Lemma byte_bits b : b < 256 <-> forall j, 8 <= j -> N.testbit b j = false.
Proof.
  split.
  - intros H j Hj. destruct (N.eq_dec b 0) as [->|Hb]; [apply N.bits_0|].
    apply N.bits_above_log2.
    assert (N.log2 b < 8) by (apply N.log2_lt_pow2; [lia | exact H]). lia.
  - intros H. destruct (N.lt_ge_cases b 256) as [|Hge]; [assumption|].
    assert (8 <= N.log2 b) by (apply N.log2_le_pow2; [lia | exact Hge]).
    assert (E : N.testbit b (N.log2 b) = true) by (apply N.bit_log2; lia).
    rewrite H in E by assumption. discriminate.
Qed.

Lemma nonzero_bit b : b <> 0 <-> exists j, N.testbit b j = true.
Proof.
  split.
  - intros H. exists (N.log2 b). now apply N.bit_log2.
  - intros [j Hj] ->. now rewrite N.bits_0 in Hj.
Qed.

Lemma cpl8_bit i j : i < 8 -> N.testbit (cpl8 (2 ^ i)) j = negb (i =? j) && (j <? 8).
Proof.
  intros Hi. unfold cpl8. rewrite N.lxor_spec, N.pow2_bits_eqb.
  change 0xff with (N.ones 8).
  destruct (N.ltb_spec j 8) as [Hj|Hj].
  - rewrite N.ones_spec_low by lia. destruct (i =? j); reflexivity.
  - rewrite N.ones_spec_high by lia.
    destruct (N.eqb_spec i j); [lia|reflexivity].
Qed.

(** * The invariant relating a group to a set of priorities *)

Definition nthN (l : list N) (i : N) : N := nth (N.to_nat i) l 0.

Record rg_rel (c : rgcfg) (g : rdygrp) (S : N -> bool) : Prop := {
  rr_len : length (rg_tbl g) = num_rdygrp (max_sma c);
  rr_byte : forall i, nthN (rg_tbl g) i < 256;
  rr_tbl : forall i j, i < N.of_nat (length (rg_tbl g)) -> j < 8 ->
           N.testbit (nthN (rg_tbl g) i) j = S (8 * i + j);
  rr_grp : forall i, N.testbit (rg_grp g) i =
           (i <? N.of_nat (length (rg_tbl g))) && negb (nthN (rg_tbl g) i =? 0);
  rr_max : forall p, S p = true -> p < max_sma c
}.

Lemma num_rdygrp_bound m : 1 <= m <= 64 ->
  m <= 8 * N.of_nat (num_rdygrp m) /\ (1 <= num_rdygrp m <= 8)%nat.
Proof.
  intros H. unfold num_rdygrp.
  repeat match goal with |- context [?a <=? ?b] =>
           destruct (N.leb_spec a b); [lia|] end. lia.
Qed.

Lemma nthN_upd l i j x :
  nthN (upd l (N.to_nat i) x) j =
  if (i =? j) && (i <? N.of_nat (length l)) then x else nthN l j.
Proof.
  unfold nthN. rewrite <- !nth_default_eq. unfold nth_default.
  rewrite nth_upd.
  replace (N.to_nat i =? N.to_nat j)%nat with (i =? j) by lia.
  replace (N.to_nat i <? length l)%nat with (i <? N.of_nat (length l)) by lia.
  destruct ((i =? j) && (i <? N.of_nat (length l))); reflexivity.
Qed.

Lemma rd_nthN l i : i < N.of_nat (length l) -> rd l (N.to_nat i) = Ok (nthN l i).
Proof.
  intros H. apply rd_ok. unfold nthN. apply nth_error_nth'. lia.
Qed.

Lemma nthN_out l i : N.of_nat (length l) <= i -> nthN l i = 0.
Proof. intros H. unfold nthN. apply nth_overflow. lia. Qed.

Lemma rg_init_rel c : rg_rel c (rg_init c) (fun _ => false).
Proof.
  unfold rg_init. constructor; cbn [rg_grp rg_tbl].
  - apply repeat_length.
  - intros i. unfold nthN. rewrite nth_repeat. lia.
  - intros i j _ _. unfold nthN. rewrite nth_repeat. apply N.bits_0.
  - intros i. unfold nthN. rewrite nth_repeat. now rewrite andb_false_r.
  - discriminate.
Qed.

Lemma shiftr3 p : N.shiftr p 3 = p / 8.
Proof. rewrite N.shiftr_div_pow2. reflexivity. Qed.
Lemma land7 p : N.land p 7 = p mod 8.
Proof. change 7 with (N.ones 3). rewrite N.land_ones. reflexivity. Qed.

Lemma divmod8 p : p = 8 * (p / 8) + p mod 8 /\ p mod 8 < 8.
Proof. split; [apply N.div_mod; lia | apply N.mod_lt; lia]. Qed.

Definition set_add (S : N -> bool) p := fun q => (q =? p) || S q.
Definition set_del (S : N -> bool) p := fun q => negb (q =? p) && S q.

Lemma rg_setReady_rel c g S p :
  1 <= max_sma c <= 64 -> rg_rel c g S -> p < max_sma c ->
  exists g', rg_setReady c g p = Ok g' /\ rg_rel c g' (set_add S p).
Proof.
  intros Hc [Hlen Hbyte Htbl Hgrp Hmax] Hp.
  destruct (num_rdygrp_bound _ Hc) as [Hn1 Hn2].
  destruct (divmod8 p) as [Hdm Hm8].
  assert (Hq : p / 8 < N.of_nat (length (rg_tbl g))) by lia.
  unfold rg_setReady.
  replace (p <? max_sma c) with true by lia. rewrite rassert_true. cbn [bind].
  rewrite shiftr3, land7, !getBitMask_spec. cbn [bind].
  replace (p / 8 <? 8) with true by lia. replace (p mod 8 <? 8) with true by lia.
  rewrite rd_nthN by assumption. cbn [bind].
  rewrite wr_lt by lia. cbn [bind].
  eexists; split; [reflexivity|].
  assert (Hlb : forall i, N.testbit (N.lor (nthN (rg_tbl g) (p/8)) (2 ^ (p mod 8))) i
                = N.testbit (nthN (rg_tbl g) (p/8)) i || (p mod 8 =? i)).
  { intros i. now rewrite N.lor_spec, N.pow2_bits_eqb. }
  constructor; cbn [rg_grp rg_tbl].
  - now rewrite length_upd.
  - intros i. rewrite nthN_upd.
    destruct ((p / 8 =? i) && _); [|apply Hbyte].
    apply byte_bits. intros j Hj. rewrite Hlb.
    rewrite (proj1 (byte_bits _) (Hbyte _)) by assumption. lia.
  - intros i j Hi Hj. rewrite length_upd in Hi. rewrite nthN_upd. unfold set_add.
    destruct (N.eqb_spec (p / 8) i) as [E|E]; cbn [andb orb negb].
    + replace (p / 8 <? N.of_nat (length (rg_tbl g))) with true by lia. rewrite Hlb, Htbl by assumption. subst i.
      rewrite orb_comm. f_equal. lia.
    + rewrite Htbl by assumption.
      replace (8 * i + j =? p) with false; [reflexivity|].
      symmetry. apply N.eqb_neq. lia.
  - intros i. rewrite N.lor_spec, Hgrp, N.pow2_bits_eqb, nthN_upd, length_upd.
    destruct (N.eqb_spec (p / 8) i) as [E|E]; cbn [andb orb negb].
    + subst i. replace (p / 8 <? N.of_nat (length (rg_tbl g))) with true by lia.
      rewrite orb_true_r. cbn [andb]. symmetry. apply negb_true_iff, N.eqb_neq.
      apply nonzero_bit. exists (p mod 8). rewrite Hlb.
      rewrite N.eqb_refl. apply orb_true_r.
    + now rewrite orb_false_r.
  - unfold set_add. intros q Hq'. apply orb_true_iff in Hq'.
    destruct Hq' as [Hq'|Hq']; [lia | now apply Hmax].
Qed.

Lemma rg_setUnready_rel c g S p :
  1 <= max_sma c <= 64 -> rg_rel c g S -> p < max_sma c ->
  exists g', rg_setUnready c g p = Ok g' /\ rg_rel c g' (set_del S p).
Proof.
  intros Hc [Hlen Hbyte Htbl Hgrp Hmax] Hp.
  destruct (num_rdygrp_bound _ Hc) as [Hn1 Hn2].
  destruct (divmod8 p) as [Hdm Hm8].
  assert (Hq : p / 8 < N.of_nat (length (rg_tbl g))) by lia.
  unfold rg_setUnready.
  replace (p <? max_sma c) with true by lia. rewrite rassert_true. cbn [bind].
  rewrite shiftr3, land7, !getBitMask_spec. cbn [bind].
  replace (p / 8 <? 8) with true by lia. replace (p mod 8 <? 8) with true by lia.
  rewrite rd_nthN by assumption. cbn [bind].
  rewrite wr_lt by lia. cbn [bind].
  set (b := nthN (rg_tbl g) (p / 8)).
  set (b' := N.land b (cpl8 (2 ^ (p mod 8)))).
  assert (Hlb : forall i, N.testbit b' i = N.testbit b i && negb (p mod 8 =? i)).
  { intros i. unfold b'. rewrite N.land_spec, cpl8_bit by assumption.
    destruct (N.ltb_spec i 8) as [Hi|Hi]; [now rewrite andb_true_r|].
    unfold b. rewrite (proj1 (byte_bits _) (Hbyte _)) by assumption. reflexivity. }
  assert (Hrel : forall grp, (forall i, N.testbit grp i =
            (i <? N.of_nat (length (rg_tbl g))) &&
            negb (nthN (upd (rg_tbl g) (N.to_nat (p / 8)) b') i =? 0)) ->
          rg_rel c (mkRG grp (upd (rg_tbl g) (N.to_nat (p / 8)) b')) (set_del S p)).
  { intros grp Hg. constructor; cbn [rg_grp rg_tbl].
    - now rewrite length_upd.
    - intros i. rewrite nthN_upd. destruct ((p / 8 =? i) && _); [|apply Hbyte].
      apply byte_bits. intros j Hj. rewrite Hlb. unfold b.
      now rewrite (proj1 (byte_bits _) (Hbyte _)) by assumption.
    - intros i j Hi Hj. rewrite length_upd in Hi. rewrite nthN_upd. unfold set_del.
      destruct (N.eqb_spec (p / 8) i) as [E|E]; cbn [andb orb negb].
      + replace (p / 8 <? N.of_nat (length (rg_tbl g))) with true by lia. rewrite Hlb. unfold b.
        rewrite Htbl by lia. subst i. rewrite andb_comm. f_equal. lia.
      + rewrite Htbl by assumption.
        replace (8 * i + j =? p) with false; [reflexivity|].
        symmetry. apply N.eqb_neq. lia.
    - intros i. rewrite length_upd. apply Hg.
    - unfold set_del. intros q Hq'. apply andb_true_iff in Hq'. now apply Hmax. }
  destruct (N.eqb_spec b' 0) as [E0|E0]; cbn [bind]; eexists; (split; [reflexivity|]);
    apply Hrel; intros i.
  - rewrite N.land_spec, Hgrp, nthN_upd, cpl8_bit by lia.
    destruct (N.eqb_spec (p / 8) i) as [E|E]; cbn [andb orb negb].
    + rewrite andb_false_r. subst i.
      replace (p / 8 <? N.of_nat (length (rg_tbl g))) with true by lia.
      rewrite E0. reflexivity.
    + destruct (N.ltb_spec i 8) as [Hi|Hi]; [now rewrite andb_true_r|].
      rewrite andb_false_r. symmetry.
      replace (i <? N.of_nat (length (rg_tbl g))) with false by lia. reflexivity.
  - rewrite Hgrp, nthN_upd.
    destruct (N.eqb_spec (p / 8) i) as [E|E]; simpl; [|reflexivity].
    subst i. replace (p / 8 <? N.of_nat (length (rg_tbl g))) with true by lia. cbn [andb].
    replace (b' =? 0) with false by lia.
    replace (nthN (rg_tbl g) (p / 8) =? 0) with false; [reflexivity|].
    symmetry. apply N.eqb_neq. apply nonzero_bit in E0. destruct E0 as [j Hj].
    apply nonzero_bit. exists j. rewrite Hlb in Hj. now apply andb_true_iff in Hj.
Qed.

(** The set is non-empty exactly when the group byte is not zero. *)
Lemma rg_isReady_rel c g S :
  1 <= max_sma c <= 64 -> rg_rel c g S ->
  rg_isReady g = true <-> exists p, S p = true.
Proof.
  intros Hc [Hlen Hbyte Htbl Hgrp Hmax].
  destruct (num_rdygrp_bound _ Hc) as [Hn1 Hn2].
  unfold rg_isReady. rewrite negb_true_iff, N.eqb_neq, nonzero_bit. split.
  - intros [i Hi]. rewrite Hgrp in Hi. apply andb_true_iff in Hi. destruct Hi as [Hi1 Hi2].
    apply negb_true_iff, N.eqb_neq, nonzero_bit in Hi2. destruct Hi2 as [j Hj].
    exists (8 * i + j). rewrite <- Htbl; [assumption | lia |].
    destruct (N.lt_ge_cases j 8) as [|Hge]; [assumption|].
    rewrite (proj1 (byte_bits _) (Hbyte i) j Hge) in Hj. discriminate.
  - intros [p Hp]. pose proof (Hmax p Hp). destruct (divmod8 p) as [Hdm Hm].
    exists (p / 8). rewrite Hgrp. apply andb_true_iff. split; [lia|].
    apply negb_true_iff, N.eqb_neq, nonzero_bit. exists (p mod 8).
    rewrite Htbl by lia. now rewrite <- Hdm.
Qed.

Lemma rg_findHighest_rel c g S :
  1 <= max_sma c <= 64 -> rg_rel c g S -> (exists p, S p = true) ->
  exists p, rg_findHighest g = Ok p /\ S p = true /\ (forall q, S q = true -> p <= q).
Proof.
  intros Hc HR Hex. pose proof (proj2 (rg_isReady_rel c g S Hc HR) Hex) as Hrdy.
  destruct HR as [Hlen Hbyte Htbl Hgrp Hmax].
  destruct (num_rdygrp_bound _ Hc) as [Hn1 Hn2].
  unfold rg_isReady in Hrdy.
  assert (Hgb : rg_grp g < 256).
  { apply byte_bits. intros j Hj. rewrite Hgrp.
    replace (j <? N.of_nat (length (rg_tbl g))) with false by lia. reflexivity. }
  destruct (getLeastBitSetPos_spec (rg_grp g)) as [i [Hi1 [Hi2 [Hi3 Hi4]]]]; [lia|].
  rewrite Hgrp in Hi3. apply andb_true_iff in Hi3. destruct Hi3 as [Hi3 Hi5].
  destruct (getLeastBitSetPos_spec (nthN (rg_tbl g) i)) as [j [Hj1 [Hj2 [Hj3 Hj4]]]].
  { pose proof (Hbyte i). lia. }
  unfold rg_findHighest. rewrite Hi1. cbn [bind].
  rewrite rd_nthN by lia. cbn [bind]. rewrite Hj1. cbn [bind].
  exists (8 * i + j). split.
  - f_equal. rewrite N.shiftl_mul_pow2. change (2 ^ 3) with 8.
    rewrite u8_small; lia.
  - split.
    + rewrite <- Htbl by lia. assumption.
    + intros q Hq. pose proof (Hmax q Hq). destruct (divmod8 q) as [Hdm Hm].
      destruct (N.lt_ge_cases (q / 8) i) as [Hlt|Hge].
      * specialize (Hi4 (q / 8) Hlt). rewrite Hgrp in Hi4.
        replace (q / 8 <? N.of_nat (length (rg_tbl g))) with true in Hi4 by lia.
        simpl in Hi4. apply negb_false_iff, N.eqb_eq in Hi4.
        rewrite Hdm, <- Htbl, Hi4, N.bits_0 in Hq by lia. discriminate.
      * destruct (N.eq_dec (q / 8) i) as [E|E]; [|lia].
        destruct (N.lt_ge_cases (q mod 8) j) as [Hlt|Hge2]; [|lia].
        specialize (Hj4 _ Hlt). rewrite Hdm, E, <- Htbl in Hq by lia. congruence.
Qed.

(** * Histories *)


Definition set_step (S : N -> bool) (o : rgop) : N -> bool :=
  match o with RgReady p => set_add S p | RgUnready p => set_del S p end.

Lemma rg_rel_ext c g S S' : (forall p, S p = S' p) -> rg_rel c g S -> rg_rel c g S'.
Proof.
  intros E [H1 H2 H3 H4 H5]. constructor; auto.
  - intros i j Hi Hj. rewrite <- E. auto.
  - intros p Hp. apply H5. now rewrite E.
Qed.

Lemma rg_run_rel c ops : forall g S,
  1 <= max_sma c <= 64 -> rg_rel c g S ->
  Forall (fun o => rgop_prio o < max_sma c) ops ->
  exists g', rg_run c g ops = Ok g' /\ rg_rel c g' (fold_left set_step ops S).
Proof.
  induction ops as [|o t IH]; intros g S Hc HR HF; simpl.
  - eauto.
  - inversion HF as [|? ? Ho Ht]; subst.
    assert (H1 : exists g1, rg_step c g o = Ok g1 /\ rg_rel c g1 (set_step S o)).
    { destruct o as [p|p]; simpl in *.
      - now apply rg_setReady_rel.
      - now apply rg_setUnready_rel. }
    destruct H1 as [g1 [E1 R1]]. rewrite E1. simpl. now apply IH.
Qed.

Lemma fold_set_member ops : forall S p,
  fold_left set_step ops S p =
  if existsb (fun o => rgop_prio o =? p) ops then rg_member ops p else S p.
Proof.
  induction ops as [|o t IH]; intros S p; simpl; [reflexivity|].
  rewrite IH. destruct (existsb (fun o' => rgop_prio o' =? p) t) eqn:E.
  - now rewrite orb_true_r.
  - rewrite orb_false_r. destruct o as [q|q]; simpl; unfold set_add, set_del;
      rewrite (N.eqb_sym p q); destruct (q =? p); reflexivity.
Qed.

Lemma member_no_op ops p :
  existsb (fun o => rgop_prio o =? p) ops = false -> rg_member ops p = false.
Proof.
  induction ops as [|o t IH]; simpl; intros H; [reflexivity|].
  apply orb_false_iff in H. destruct H as [H1 H2]. rewrite H1, H2. auto.
Qed.

Lemma rg_history c ops :
  1 <= max_sma c <= 64 -> Forall (fun o => rgop_prio o < max_sma c) ops ->
  exists g, rg_run c (rg_init c) ops = Ok g /\ rg_rel c g (rg_member ops).
Proof.
  intros Hc HF. destruct (rg_run_rel c ops _ _ Hc (rg_init_rel c) HF) as [g [E R]].
  exists g. split; [assumption|]. eapply rg_rel_ext; [|exact R].
  intros p. rewrite fold_set_member.
  destruct (existsb _ ops) eqn:E2; [reflexivity|]. now rewrite member_no_op.
Qed.

(** * Traversal *)


Lemma cb_fold_app {W} (cb : N -> W -> res W) l1 l2 w :
  cb_fold cb (l1 ++ l2) w = do w' <- cb_fold cb l1 w; cb_fold cb l2 w'.
Proof.
  revert w; induction l1 as [|p t IH]; intros w; simpl; [reflexivity|].
  destruct (cb p w); simpl; auto.
Qed.

(** Positions, at least [nBit], of the set bits of [column] shifted by [nBit]. *)
Fixpoint bits_from (k : nat) (row nBit column : N) : list N :=
  match k with
  | O => []
  | S k' => (if N.odd column then [8 * row + nBit] else []) ++
            bits_from k' row (nBit + 1) (N.shiftr column 1)
  end.

Lemma bits_from_0 k row nBit : bits_from k row nBit 0 = [].
Proof. revert nBit; induction k; intros; simpl; auto. Qed.

Lemma lor_shift3 row nBit : nBit < 8 -> N.lor (N.shiftl row 3) nBit = 8 * row + nBit.
Proof.
  intros H. rewrite N.shiftl_mul_pow2. change (2 ^ 3) with 8.
  rewrite <- N.lxor_lor.
  - rewrite <- N.add_nocarry_lxor; [lia|].
    apply N.bits_inj. intros i. rewrite N.land_spec, N.bits_0.
    destruct (N.lt_ge_cases i 3) as [Hi|Hi].
    + change 8 with (2 ^ 3). rewrite N.mul_pow2_bits_low by lia. reflexivity.
    +      assert (E : N.testbit nBit i = false).
      { destruct (N.eq_dec nBit 0) as [->|]; [apply N.bits_0|].
        apply N.bits_above_log2. assert (N.log2 nBit < 3) by (apply N.log2_lt_pow2; [lia|exact H]). lia. }
      rewrite E. apply andb_false_r.
  - apply N.bits_inj. intros i. rewrite N.land_spec, N.bits_0.
    destruct (N.lt_ge_cases i 3) as [Hi|Hi].
    + change 8 with (2 ^ 3). rewrite N.mul_pow2_bits_low by lia. reflexivity.
    + assert (E : N.testbit nBit i = false).
      { destruct (N.eq_dec nBit 0) as [->|]; [apply N.bits_0|].
        apply N.bits_above_log2. assert (N.log2 nBit < 3) by (apply N.log2_lt_pow2; [lia|exact H]). lia. }
      rewrite E. apply andb_false_r.
Qed.

Lemma iter_succ_r {A} n (f : A -> A) x : Nat.iter (S n) f x = Nat.iter n f (f x).
Proof. induction n as [|n IH]; [reflexivity|].
  change (Nat.iter (S (S n)) f x) with (f (Nat.iter (S n) f x)). now rewrite IH. Qed.

Lemma rg_bits_fold {W} (cb : N -> W -> res W) row k : forall nBit column n w,
  nBit + N.of_nat k <= 8 ->
  rg_bits cb row k nBit column n w =
  do w' <- cb_fold cb (bits_from k row nBit column) w;
  Ok (Nat.iter (length (bits_from k row nBit column)) (fun n => u8 (n + 1)) n, w').
Proof.
  induction k as [|k IH]; intros nBit column n w Hk; [reflexivity|].
  cbn [rg_bits]. destruct (N.eqb_spec column 0) as [->|Hc].
  - rewrite bits_from_0. reflexivity.
  - cbn [bits_from]. destruct (N.odd column) eqn:Ho.
    + rewrite lor_shift3 by lia. cbn [app cb_fold].
      destruct (cb (8 * row + nBit) w) as [w'|]; cbn [bind]; [|reflexivity].
      rewrite IH by lia. destruct (cb_fold cb _ w'); cbn [bind]; [|reflexivity].
      do 2 f_equal. cbn [length]. now rewrite iter_succ_r.
    + cbn [app]. apply IH. lia.
Qed.

Fixpoint rows_from (row : N) (tbl : list N) : list N :=
  match tbl with [] => [] | b :: t => bits_from 8 row 0 b ++ rows_from (row + 1) t end.

Lemma rg_rows_fold {W} (cb : N -> W -> res W) tbl : forall row n w,
  rg_rows cb row tbl n w =
  do w' <- cb_fold cb (rows_from row tbl) w;
  Ok (Nat.iter (length (rows_from row tbl)) (fun n => u8 (n + 1)) n, w').
Proof.
  induction tbl as [|b t IH]; intros row n w; [reflexivity|].
  cbn [rg_rows rows_from]. rewrite rg_bits_fold by lia.
  rewrite cb_fold_app. destruct (cb_fold cb (bits_from 8 row 0 b) w) as [w'|]; cbn [bind]; [|reflexivity].
  rewrite IH. destruct (cb_fold cb _ w'); cbn [bind]; [|reflexivity].
  do 2 f_equal. rewrite app_length, Nat.add_comm.
  generalize (length (rows_from (row + 1) t)), (length (bits_from 8 row 0 b)).
  intros x d. induction x as [|x IHx]; simpl; [reflexivity|]. now rewrite IHx.
Qed.

Lemma in_bits_from k : forall row nBit column p,
  In p (bits_from k row nBit column) <->
  exists j, j < N.of_nat k /\ p = 8 * row + nBit + j /\ N.testbit column j = true.
Proof.
  induction k as [|k IH]; intros row nBit column p; cbn [bits_from].
  - split; [intros [] | intros [j [H _]]; lia].
  - rewrite in_app_iff, IH. split.
    + intros [H|[j [H1 [H2 H3]]]].
      * destruct (N.odd column) eqn:Ho; [|destruct H].
        destruct H as [<-|[]]. exists 0. split; [lia|]. split; [lia|].
        now rewrite N.bit0_odd.
      * exists (j + 1). rewrite N.shiftr_spec in H3 by lia.
        split; [lia|]. split; [lia | assumption].
    + intros [j [H1 [H2 H3]]]. destruct (N.eq_dec j 0) as [->|Hj].
      * left. rewrite N.bit0_odd in H3. rewrite H3. left. lia.
      * right. exists (j - 1). rewrite N.shiftr_spec by lia.
        replace (j - 1 + 1) with j by lia. split; [lia|]. split; [lia|assumption].
Qed.

Lemma in_rows_from tbl : forall row p,
  In p (rows_from row tbl) <->
  exists i j, i < N.of_nat (length tbl) /\ j < 8 /\ p = 8 * (row + i) + j /\
              N.testbit (nthN tbl i) j = true.
Proof.
  induction tbl as [|b t IH]; intros row p; cbn [rows_from length].
  - split; [intros [] | intros [i [j [H _]]]; lia].
  - rewrite in_app_iff, in_bits_from, IH. split.
    + intros [[j [H1 [H2 H3]]]|[i [j [H1 [H2 [H3 H4]]]]]].
      * exists 0, j. split; [lia|]. split; [lia|]. split; [lia|exact H3].
      * exists (i + 1), j. split; [lia|]. split; [lia|]. split; [lia|].
        unfold nthN in *. replace (N.to_nat (i + 1)) with (S (N.to_nat i)) by lia.
        exact H4.
    + intros [i [j [H1 [H2 [H3 H4]]]]]. destruct (N.eq_dec i 0) as [->|Hi].
      * left. exists j. split; [lia|]. split; [lia|exact H4].
      * right. exists (i - 1), j. split; [lia|]. split; [lia|]. split; [lia|].
        unfold nthN in *. replace (N.to_nat i) with (S (N.to_nat (i - 1))) in H4 by lia.
        exact H4.
Qed.


Lemma ascending_app l1 l2 :
  ascending l1 -> ascending l2 -> (forall x y, In x l1 -> In y l2 -> x < y) ->
  ascending (l1 ++ l2).
Proof.
  induction l1 as [|x t IH]; intros H1 H2 H3; simpl in *; [assumption|].
  destruct H1 as [H1 H1']. split.
  - intros y Hy. apply in_app_iff in Hy. destruct Hy; auto.
  - apply IH; auto.
Qed.

Lemma ascending_NoDup l : ascending l -> NoDup l.
Proof.
  induction l as [|x t IH]; intros H; constructor; destruct H as [H1 H2]; auto.
  intros Hin. specialize (H1 x Hin). lia.
Qed.

Lemma bits_from_asc k row : forall nBit column, ascending (bits_from k row nBit column).
Proof.
  induction k as [|k IH]; intros nBit column; cbn [bits_from]; [exact I|].
  apply ascending_app.
  - destruct (N.odd column); simpl; auto. split; [intros y []|exact I].
  - apply IH.
  - intros x y Hx Hy. destruct (N.odd column); [|destruct Hx].
    destruct Hx as [<-|[]]. apply in_bits_from in Hy. destruct Hy as [j [H1 [H2 _]]]. lia.
Qed.

Lemma rows_from_asc tbl : forall row, ascending (rows_from row tbl).
Proof.
  induction tbl as [|b t IH]; intros row; cbn [rows_from]; [exact I|].
  apply ascending_app; [apply bits_from_asc | apply IH |].
  intros x y Hx Hy. apply in_bits_from in Hx. apply in_rows_from in Hy.
  destruct Hx as [j [H1 [H2 _]]]. destruct Hy as [i [j' [H3 [H4 [H5 _]]]]]. lia.
Qed.

Lemma ascending_ext l1 : forall l2, ascending l1 -> ascending l2 ->
  (forall x, In x l1 <-> In x l2) -> l1 = l2.
Proof.
  induction l1 as [|x t IH]; intros [|y u] H1 H2 HE.
  - reflexivity.
  - exfalso. apply (proj2 (HE y)). now left.
  - exfalso. apply (proj1 (HE x)). now left.
  - destruct H1 as [Hx Ht], H2 as [Hy Hu].
    assert (x = y).
    { destruct (proj1 (HE x) (or_introl eq_refl)) as [|Hxu]; [auto|].
      destruct (proj2 (HE y) (or_introl eq_refl)) as [|Hyt]; [auto|].
      specialize (Hx y Hyt). specialize (Hy x Hxu). lia. }
    subst y. f_equal. apply IH; auto. intros z. split; intros Hz.
    + destruct (proj1 (HE z) (or_intror Hz)) as [<-|]; [|auto].
      specialize (Hx x Hz). lia.
    + destruct (proj2 (HE z) (or_intror Hz)) as [<-|]; [|auto].
      specialize (Hy x Hz). lia.
Qed.

Definition elements (max : N) (S : N -> bool) : list N :=
  filter S (N_seq (N.to_nat max)).

Lemma in_elements max S p : In p (elements max S) <-> p < max /\ S p = true.
Proof.
  unfold elements. rewrite filter_In. split; intros [H1 H2]; split; auto.
  - unfold N_seq in H1. apply in_map_iff in H1. destruct H1 as [k [<- Hk]].
    apply in_seq in Hk. lia.
  - apply in_N_seq. lia.
Qed.

Lemma seq_asc n : forall s, ascending (map N.of_nat (seq s n)).
Proof.
  induction n as [|n IH]; intros s; simpl; [exact I|]. split; [|apply IH].
  intros y Hy. apply in_map_iff in Hy. destruct Hy as [k [<- Hk]]. apply in_seq in Hk. lia.
Qed.

Lemma ascending_filter f l : ascending l -> ascending (filter f l).
Proof.
  induction l as [|x t IH]; simpl; intros H; [exact I|]. destruct H as [H1 H2].
  destruct (f x); simpl; auto. split; auto.
  intros y Hy. apply filter_In in Hy. apply H1. tauto.
Qed.

Lemma elements_asc max S : ascending (elements max S).
Proof. apply ascending_filter, seq_asc. Qed.

Lemma iter_u8 n : (n < 256)%nat -> Nat.iter n (fun n => u8 (n + 1)) 0 = N.of_nat n.
Proof.
  induction n as [|n IH]; intros H; [reflexivity|].
  change (u8 (Nat.iter n (fun n => u8 (n + 1)) 0 + 1) = N.of_nat (S n)).
  rewrite IH by lia. rewrite u8_small; lia.
Qed.

Lemma elements_length max S : (length (elements max S) <= N.to_nat max)%nat.
Proof.
  unfold elements. etransitivity.
  - apply (NoDup_incl_length (l' := N_seq (N.to_nat max))).
    + apply ascending_NoDup, elements_asc.
    + intros x Hx. apply filter_In in Hx. tauto.
  - unfold N_seq. now rewrite map_length, seq_length.
Qed.

Lemma rg_traverse_rel {W} c g S (cb : N -> W -> res W) w :
  1 <= max_sma c <= 64 -> rg_rel c g S ->
  rg_traverse g cb w =
  do w' <- cb_fold cb (elements (max_sma c) S) w;
  Ok (N.of_nat (length (elements (max_sma c) S)), w').
Proof.
  intros Hc HR. destruct (rg_isReady_rel c g S Hc HR) as [Hr1 Hr2].
  pose proof HR as HR'. destruct HR' as [Hlen Hbyte Htbl Hgrp Hmax].
  destruct (num_rdygrp_bound _ Hc) as [Hn1 Hn2].
  unfold rg_isReady in *. unfold rg_traverse.
  assert (E : rows_from 0 (rg_tbl g) = elements (max_sma c) S).
  { apply ascending_ext; [apply rows_from_asc | apply elements_asc |].
    intros p. rewrite in_rows_from, in_elements. split.
    - intros [i [j [H1 [H2 [H3 H4]]]]]. rewrite Htbl in H4 by assumption.
      subst p. split; auto.
    - intros [H1 H2]. destruct (divmod8 p) as [Hdm Hm].
      exists (p / 8), (p mod 8). split; [lia|]. split; [lia|]. split; [lia|].
      rewrite Htbl by lia. now rewrite <- Hdm. }
  destruct (negb (rg_grp g =? 0)) eqn:Ez.
  - rewrite rg_rows_fold, E. destruct (cb_fold cb _ w); simpl; [|reflexivity].
    do 2 f_equal. apply iter_u8. pose proof (elements_length (max_sma c) S). lia.
  - assert (Ee : elements (max_sma c) S = []).
    { destruct (elements (max_sma c) S) as [|x t] eqn:E2; [reflexivity|].
      assert (Hin : In x (elements (max_sma c) S)) by (rewrite E2; now left).
      apply in_elements in Hin. destruct Hin as [_ Hin].
      discriminate (Hr2 (ex_intro _ x Hin)). }
    rewrite Ee. reflexivity.
Qed.

Lemma rg_history_spec c ops :
  1 <= max_sma c <= 64 -> Forall (fun o => rgop_prio o < max_sma c) ops ->
  exists g, rg_run c (rg_init c) ops = Ok g /\
    (rg_isReady g = true <-> exists p, rg_member ops p = true) /\
    ((exists p, rg_member ops p = true) ->
       exists p, rg_findHighest g = Ok p /\ rg_member ops p = true /\
                 (forall q, rg_member ops q = true -> p <= q)).
Proof.
  intros Hc HF. destruct (rg_history c ops Hc HF) as [g [E R]].
  exists g. split; [assumption|]. split.
  - now apply rg_isReady_rel with (c := c).
  - now apply rg_findHighest_rel with (c := c).
Qed.

Lemma rg_empty_history c ops :
  1 <= max_sma c <= 64 -> Forall (fun o => rgop_prio o < max_sma c) ops ->
  (forall p, rg_member ops p = false) ->
  exists g, rg_run c (rg_init c) ops = Ok g /\ rg_isReady g = false /\ rg_findHighest g = Ok 0.
Proof.
  intros Hc HF Hn. destruct (rg_history c ops Hc HF) as [g [E R]]. exists g. split; [assumption|].
  assert (Hr : rg_isReady g = false).
  { destruct (rg_isReady g) eqn:Er; [|reflexivity]. apply (rg_isReady_rel c g _ Hc R) in Er. destruct Er as [p Hp].
    rewrite Hn in Hp. discriminate. }
  split; [exact Hr|]. unfold rg_isReady in Hr. apply negb_false_iff, N.eqb_eq in Hr.
  destruct R as [Hlen Hbyte Htbl Hgrp Hmax]. destruct (num_rdygrp_bound _ Hc) as [Hn1 Hn2].
  assert (H0 : nthN (rg_tbl g) 0 = 0).
  { assert (Hb : N.testbit (rg_grp g) 0 = false) by (rewrite Hr; reflexivity). rewrite Hgrp in Hb.
    replace (0 <? N.of_nat (length (rg_tbl g))) with true in Hb by lia. simpl in Hb.
    apply negb_false_iff, N.eqb_eq in Hb. exact Hb. }
  unfold rg_findHighest. rewrite Hr. change (getLeastBitSetPos 0) with (Ok 0 : res N). cbn [bind].
  rewrite rd_nthN by lia. cbn [bind]. rewrite H0. reflexivity.
Qed.

Lemma rg_traverse_history {W} c ops (cb : N -> W -> res W) w :
  1 <= max_sma c <= 64 -> Forall (fun o => rgop_prio o < max_sma c) ops ->
  exists g l, rg_run c (rg_init c) ops = Ok g /\ ascending l /\
    (forall p, In p l <-> rg_member ops p = true) /\
    rg_traverse g cb w = do w' <- cb_fold cb l w; Ok (N.of_nat (length l), w').
Proof.
  intros Hc HF. destruct (rg_history c ops Hc HF) as [g [E R]].
  exists g, (elements (max_sma c) (rg_member ops)).
  split; [assumption|]. split; [apply elements_asc|]. split.
  - intros p. rewrite in_elements. split; [tauto|]. intros H. split; [|assumption].
    now apply (rr_max _ _ _ R).
  - now apply rg_traverse_rel.
Qed.

Lemma rg_range_checked c g p :
  rg_asrt c = true -> max_sma c <= p ->
  rg_setReady c g p = Fault (FAssert 92) /\ rg_setUnready c g p = Fault (FAssert 100).
Proof.
  intros Ha Hp. unfold rg_setReady, rg_setUnready, rassert. rewrite Ha.
  replace (p <? max_sma c) with false by lia. split; reflexivity.
Qed.
