(** Proofs: the reader of the trace. *)
From Verif Require Import Base L_Base M_TrcStream S_TrcStream L_TrcStream M_TrcRecord S_TrcRecord L_TrcRecord M_TzParse S_TzParse.
Local Open Scope N_scope.

(** ** Removing the escaping byte by byte *)
Definition ustep (x : list N * bool) (b : N) : list N * bool :=
  let (d, p) := x in if p then (d ++ [N.lxor b 0x20], false) else if b =? 0x7D then (d, true) else (d ++ [b], false).
Definition coll (raw : list N) : list N * bool := fold_left ustep raw ([], false).
Lemma coll_snoc raw b : coll (raw ++ [b]) = ustep (coll raw) b.
Proof. unfold coll. now rewrite fold_left_app. Qed.
Lemma coll_gen : forall n raw d0, (length raw <= n)%nat ->
  match unescape raw with
  | Some d => fold_left ustep raw (d0, false) = (d0 ++ d, false)
  | None => snd (fold_left ustep raw (d0, false)) = true
  end.
Proof.
  induction n as [|n IH]; intros raw d0 Hn.
  - destruct raw; [|cbn in Hn; lia]. cbn. now rewrite app_nil_r.
  - destruct raw as [|b raw]; [cbn; now rewrite app_nil_r|]. cbn [length] in Hn. cbn [unescape fold_left ustep].
    destruct (b =? 0x7D).
    + destruct raw as [|x raw]; [reflexivity|]. cbn [length] in Hn. cbn [fold_left ustep].
      specialize (IH raw (d0 ++ [N.lxor x 0x20]) ltac:(lia)). destruct (unescape raw); [|exact IH]. rewrite IH, <- app_assoc. reflexivity.
    + specialize (IH raw (d0 ++ [b]) ltac:(lia)). destruct (unescape raw); [|exact IH]. rewrite IH, <- app_assoc. reflexivity.
Qed.
Lemma unescape_coll raw : unescape raw = if snd (coll raw) then None else Some (fst (coll raw)).
Proof.
  pose proof (coll_gen (length raw) raw [] (le_n _)) as H. fold (coll raw) in H. destruct (unescape raw) as [d|].
  - rewrite H. reflexivity.
  - now rewrite H.
Qed.
Lemma bytes_coll raw : bytes_of raw = fst (coll raw).
Proof.
  unfold bytes_of. rewrite unescape_coll. destruct (coll raw) as [d p] eqn:E. cbn [fst snd]. destruct p; [|reflexivity].
  destruct raw as [|b0 raw0] using rev_ind; [discriminate|]. rewrite removelast_last, unescape_coll. rewrite coll_snoc in E.
  destruct (coll raw0) as [d1 p1]. cbn [fst snd]. unfold ustep in E. destruct p1; [discriminate|]. destruct (b0 =? 0x7D); [|discriminate]. congruence.
Qed.

(** ** The reader between two flags *)
Definition inv (z : tz) (raw : list N) : Prop :=
  tz_good z /\ let (d, p) := coll raw in
  z_state z = (if p then Escaping else Collect) /\ z_ptr z = length d /\ firstn (length d) (z_tr z) = d /\ z_trix z = u8 (N.of_nat (length d)).
Lemma inv_init z : tz_good z -> inv (trazer_init z) [].
Proof. intros H. split; [exact H|]. cbn. auto. Qed.
Lemma inv_flag z raw s : inv z raw -> inv (set_state (parser_init z) Collect) [] /\ (z_state z = Collect -> inv (parser_init z) []) /\
  (tz_good (mkTz (z_state z) (z_tr z) (z_ptr z) (z_trix z) s) -> z_state z = Collect -> inv (parser_init (mkTz (z_state z) (z_tr z) (z_ptr z) (z_trix z) s)) []).
Proof.
  intros [H _]. split; [|split].
  - split; [exact H|]. cbn. auto.
  - intros E. split; [exact H|]. cbn. auto.
  - intros Hg E. split; [exact Hg|]. cbn. auto.
Qed.
Lemma firstn_upd n (l : list N) v : (n < length l)%nat -> firstn (S n) (upd l n v) = firstn n l ++ [v].
Proof.
  revert l. induction n as [|n IH]; intros [|x l] H; cbn [length] in H; try lia; [reflexivity|].
  cbn [upd firstn]. cbn [firstn] in IH. rewrite IH by lia. reflexivity.
Qed.
Lemma collect_ok z raw d p b : inv z raw -> coll raw = (d, p) -> (length d < 512)%nat ->
  exists z', parser_collect z b = Ok z' /\ tz_good z' /\ z_state z' = z_state z /\ z_ptr z' = length (d ++ [b]) /\
    firstn (length (d ++ [b])) (z_tr z') = d ++ [b] /\ z_trix z' = u8 (N.of_nat (length (d ++ [b]))).
Proof.
  intros [[G1 G2] H] E Hl. rewrite E in H. destruct H as (H1 & H2 & H3 & H4). unfold parser_collect.
  assert (Hu : u8 (z_trix z + 1) < 256) by (unfold u8; apply N.mod_lt; lia).
  replace (512 <? u8 (z_trix z + 1)) with false by (symmetry; apply N.ltb_ge; lia).
  rewrite wr_lt by (rewrite G1, H2; exact Hl). cbn [bind]. eexists. split; [reflexivity|]. cbn.
  split; [split; cbn; [rewrite length_upd; exact G1|exact G2]|]. split; [reflexivity|]. rewrite app_length. cbn [length].
  split; [lia|]. split.
  - rewrite Nat.add_1_r, H2, firstn_upd by lia. now rewrite H3.
  - rewrite H4. unfold u8. rewrite N.add_mod_idemp_l by lia. f_equal. lia.
Qed.
Lemma step_ok z raw b o : inv z raw -> b <> 0x7E -> (length (bytes_of (raw ++ [b])) <= 512)%nat ->
  exists z', trazer_parse z o b = Ok (z', o, []) /\ inv z' (raw ++ [b]).
Proof.
  intros Hi Hb Hl. rewrite bytes_coll, coll_snoc in Hl. destruct (coll raw) as [d p] eqn:E.
  pose proof Hi as [G H]. rewrite E in H. destruct H as (H1 & H2 & H3 & H4).
  unfold trazer_parse. rewrite H1. change TZ_FLG with 0x7E. replace (b =? 0x7E) with false by (symmetry; now apply N.eqb_neq).
  cbn [ustep] in Hl. destruct p.
  - cbn [fst] in Hl. rewrite app_length in Hl. cbn [length] in Hl.
    destruct (collect_ok z raw d true (N.lxor b TZ_XOR) Hi E ltac:(lia)) as (z' & -> & F1 & F2 & F3 & F4 & F5). cbn [bind].
    eexists. split; [reflexivity|]. split; [exact F1|]. rewrite coll_snoc, E. cbn [ustep]. auto.
  - change TZ_ESC with 0x7D. destruct (b =? 0x7D) eqn:Eb.
    + eexists. split; [reflexivity|]. split; [exact G|]. rewrite coll_snoc, E. cbn [ustep]. rewrite Eb. auto.
    + cbn [fst] in Hl. rewrite app_length in Hl. cbn [length] in Hl.
      destruct (collect_ok z raw d false b Hi E ltac:(lia)) as (z' & -> & F1 & F2 & F3 & F4 & F5). cbn [bind].
      eexists. split; [reflexivity|]. split; [exact F1|]. rewrite coll_snoc, E. cbn [ustep]. rewrite Eb.
      rewrite F2. auto.
Qed.

(** ** The end of a frame *)
Lemma chk_sum l : forall a, a < 256 -> fold_left (fun chk b => u8 (chk + b)) l a = (a + sum l) mod 256.
Proof.
  induction l as [|b l IH]; intros a Ha; cbn [fold_left sum fold_right].
  - rewrite N.add_0_r. symmetry. now apply N.mod_small.
  - rewrite IH by (unfold u8; apply N.mod_lt; lia). unfold u8. rewrite N.add_mod_idemp_l by lia. f_equal. fold (sum l). lia.
Qed.
Lemma seen_trix (d tr : list N) : firstn (length d) tr = d -> firstn (N.to_nat (u8 (N.of_nat (length d)))) tr = seen d.
Proof.
  intros H. unfold seen. rewrite <- H at 3. rewrite firstn_firstn. f_equal. unfold u8.
  rewrite N2Nat.inj_mod, Nat2N.id. change (N.to_nat 256) with 256%nat. pose proof (Nat.mod_le (length d) 256 ltac:(lia)). lia.
Qed.
Lemma cstr_split m : In 0 m -> exists s y, m = s ++ 0 :: y /\ ~ In 0 s /\ cstr m = s ++ [0] /\ (forall n, In 0 (firstn n m) -> (length s < n)%nat).
Proof.
  induction m as [|b m IH]; [easy|]. intros H. cbn [cstr]. destruct (N.eqb_spec b 0) as [-> | Hb].
  - exists [], m. repeat split; auto. intros [|n] Hn; cbn in *; [easy|lia].
  - destruct H as [E | H]; [congruence|]. destruct (IH H) as (s & y & -> & H1 & H2 & H3). exists (b :: s), y. repeat split.
    + intros [E | E]; auto.
    + cbn. now rewrite H2.
    + intros [|n] Hn; [easy|]. cbn [firstn] in Hn. destruct Hn as [E | Hn]; [congruence|]. specialize (H3 n Hn). cbn. lia.
Qed.
Lemma skipn_cons_nth (l : list N) n x y : skipn n l = x :: y -> nth_error l n = Some x /\ skipn (S n) l = y.
Proof.
  revert l. induction n as [|n IH]; intros [|b l] H; try discriminate; cbn in *.
  - now inversion H.
  - exact (IH l H).
Qed.
Lemma assemble_str_ok tr y : forall s k trb sym p, skipn trb tr = s ++ 0 :: y -> ~ In 0 s ->
  (p + length s < length sym)%nat -> (length s < k)%nat ->
  exists sym', assemble_str k tr trb sym p = Ok sym' /\ length sym' = length sym /\
    firstn (p + length s + 1) sym' = firstn p sym ++ s ++ [0].
Proof.
  induction s as [|b s IH]; intros k trb sym p Ht H0 Hp Hk; cbn [length app] in *; destruct k as [|k]; try lia; cbn [assemble_str].
  - destruct (skipn_cons_nth _ _ _ _ Ht) as [E _]. rewrite (proj2 (rd_ok _ _ _) E). cbn [bind N.eqb].
    rewrite wr_lt by lia. eexists. split; [reflexivity|]. split; [apply length_upd|].
    replace (p + 0 + 1)%nat with (S p) by lia. apply firstn_upd. lia.
  - destruct (skipn_cons_nth _ _ _ _ Ht) as [E Ht']. rewrite (proj2 (rd_ok _ _ _) E). cbn [bind].
    destruct (N.eqb_spec b 0) as [-> | Hb]; [exfalso; apply H0; now left|]. rewrite wr_lt by lia. cbn [bind].
    destruct (IH k (S trb) (upd sym p b) (S p) Ht') as (sym' & E1 & E2 & E3).
    + intros Hx. apply H0. now right.
    + rewrite length_upd. lia.
    + lia.
    + exists sym'. split; [exact E1|]. split; [rewrite E2; apply length_upd|].
      replace (p + S (length s) + 1)%nat with (S p + length s + 1)%nat by lia. rewrite E3, firstn_upd by lia.
      rewrite <- !app_assoc. reflexivity.
Qed.
Lemma str_of_app s y : ~ In 0 s -> str_of (s ++ 0 :: y) = s.
Proof.
  induction s as [|b s IH]; intros H; [reflexivity|]. cbn. destruct (N.eqb_spec b 0) as [-> | Hb]; [exfalso; apply H; now left|].
  rewrite IH; [reflexivity|]. intros Hx. apply H. now right.
Qed.
Lemma firstn_repeat (x : N) : forall m n, (m <= n)%nat -> firstn m (repeat x n) = repeat x m.
Proof. induction m as [|m IH]; intros [|n] H; try lia; [reflexivity|reflexivity|]. cbn. rewrite IH by lia. reflexivity. Qed.
Lemma strncpy_padded s : (length s <= 256)%nat -> strncpy UT_SIZEOF_MSG s = padded s.
Proof.
  intros H. unfold strncpy, padded. rewrite firstn_app, (firstn_all2 s) by exact H. f_equal.
  apply firstn_repeat. lia.
Qed.
Lemma lor4 a b c e : byte a -> byte b -> byte c -> byte e ->
  N.lor (N.shiftl a 0 mod 2 ^ 32) (N.lor (N.shiftl b 8 mod 2 ^ 32) (N.lor (N.shiftl c 16 mod 2 ^ 32) (N.lor (N.shiftl e 24 mod 2 ^ 32) 0))) = unle [a; b; c; e].
Proof.
  unfold byte. intros Ha Hb Hc He. rewrite !N.shiftl_mul_pow2. cbn [unle].
  rewrite N.mul_0_r, N.add_0_r.
  change (2 ^ 0) with 1. change (2 ^ 8) with 256. change (2 ^ 16) with 65536. change (2 ^ 24) with 16777216. change (2 ^ 32) with 4294967296.
  rewrite !N.mod_small by lia.
  assert (L : forall x y k, x < 2 ^ k -> N.lor x (y * 2 ^ k) = x + y * 2 ^ k).
  { intros x y k Hx. rewrite <- N.shiftl_mul_pow2. rewrite <- N.lxor_lor.
    - symmetry. apply N.add_nocarry_lxor. apply N.bits_inj_0. intros n. rewrite N.land_spec.
      destruct (N.lt_ge_cases n k) as [Hn | Hn].
      + rewrite N.shiftl_spec_low by exact Hn. apply andb_false_r.
      + rewrite <- (N.mod_small x (2 ^ k)) by exact Hx. rewrite N.mod_pow2_bits_high by exact Hn. reflexivity.
    - apply N.bits_inj_0. intros n. rewrite N.land_spec. destruct (N.lt_ge_cases n k) as [Hn | Hn].
      + rewrite N.shiftl_spec_low by exact Hn. apply andb_false_r.
      + rewrite <- (N.mod_small x (2 ^ k)) by exact Hx. rewrite N.mod_pow2_bits_high by exact Hn. reflexivity. }
  rewrite N.lor_0_r.
  pose proof (L (c * 65536) e 24) as L1. change (2 ^ 24) with 16777216 in L1. rewrite L1 by lia.
  pose proof (L (b * 256) (c + e * 256) 16) as L2. change (2 ^ 16) with 65536 in L2.
  replace (c * 65536 + e * 16777216) with ((c + e * 256) * 65536) by lia. rewrite L2 by lia.
  pose proof (L a (b + (c + e * 256) * 256) 8) as L3. change (2 ^ 8) with 256 in L3.
  replace (b * 256 + (c + e * 256) * 65536) with ((b + (c + e * 256) * 256) * 256) by lia. rewrite N.mul_1_r, L3 by lia. lia.
Qed.
Lemma lxor_byte b : byte b -> byte (N.lxor b 0x20).
Proof.
  unfold byte. intros H. destruct (N.eq_dec (N.lxor b 0x20) 0) as [-> | Hn]; [lia|].
  apply N.log2_lt_pow2 with (b := 8); [lia|]. pose proof (N.log2_lxor b 0x20) as Hx.
  assert (N.log2 b < 8). { destruct (N.eq_dec b 0) as [-> | Hb]; [reflexivity|]. apply N.log2_lt_pow2; [lia|exact H]. }
  change (N.log2 32) with 5 in Hx. lia.
Qed.
Lemma coll_bytes raw : Forall byte raw -> Forall byte (fst (coll raw)).
Proof.
  induction raw as [|b raw IH] using rev_ind; intros H; [constructor|]. apply Forall_app in H. destruct H as [H1 H2].
  specialize (IH H1). rewrite coll_snoc. destruct (coll raw) as [d p]. cbn [fst] in IH. inversion H2; subst. cbn [ustep].
  destruct p; [|destruct (b =? 0x7D)]; cbn [fst]; [|exact IH|]; (apply Forall_app; split; [exact IH|constructor; [|constructor]]); [now apply lxor_byte|assumption].
Qed.
Lemma firstn_all_app (d tr : list N) : firstn (length d) tr = d -> tr = d ++ skipn (length d) tr.
Proof. intros H. rewrite <- H at 1. symmetry. apply firstn_skipn. Qed.

Lemma utFail_ok z o d : tz_good z -> firstn (length d) (z_tr z) = d -> Forall byte d -> nth_error d 0 = Some 233 ->
  In 0 (firstn 16 (skipn 5 d)) ->
  exists sym, utFail z o = Ok (mkTz (z_state z) (z_tr z) (z_ptr z) (z_trix z) sym, effect o (CallParser d)) /\ length sym = 16%nat.
Proof.
  intros [G1 G2] Hd Hb H0 Hm. destruct d as [|x [|a [|b [|c [|e m]]]]]; try (cbn in Hm; tauto).
  cbn in H0. injection H0 as ->. cbn [skipn] in Hm.
  assert (Hm' : In 0 m) by (rewrite <- (firstn_skipn 16 m); apply in_or_app; now left).
  destruct (cstr_split m Hm') as (s & y & E & E1 & E2 & E3). specialize (E3 16%nat Hm).
  pose proof (firstn_all_app _ _ Hd) as Et. set (junk := skipn _ _) in Et.
  assert (Ha : assemble 4 0 (z_tr z) 1 = Ok (unle [a; b; c; e], 5%nat)).
  { inversion Hb as [|? ? _ B1]; subst. inversion B1 as [|? ? Ba B2]; subst. inversion B2 as [|? ? Bb B3]; subst.
    inversion B3 as [|? ? Bc B4]; subst. inversion B4 as [|? ? Be _]; subst. rewrite Et. unfold assemble, rd. cbn [app nth_error bind].
    change (0 + 8) with 8. change (8 + 8) with 16. change (16 + 8) with 24. now rewrite lor4. }
  unfold utFail. rewrite Ha. cbn [bind].
  assert (Ht : skipn 5 (z_tr z) = s ++ 0 :: (y ++ junk)). { rewrite Et. cbn [app skipn]. rewrite E, <- app_assoc. reflexivity. }
  destruct (assemble_str_ok (z_tr z) (y ++ junk) s (S TZ_BUF) 5 (z_sym z) 0 Ht E1) as (sym & F1 & F2 & F3).
  - rewrite G2. cbn. lia.
  - unfold TZ_BUF. lia.
  - rewrite F1. cbn [bind]. exists sym. split; [|now rewrite F2]. f_equal. f_equal.
    unfold effect. cbn [N.eqb Pos.eqb skipn firstn]. rewrite E2, removelast_last. f_equal.
    assert (Es : sym = s ++ 0 :: skipn (length s + 1) sym).
    { rewrite <- (firstn_skipn (length s + 1) sym) at 1. cbn [plus firstn app] in F3. rewrite F3, <- app_assoc. reflexivity. }
    rewrite Es, str_of_app by exact E1. apply strncpy_padded. lia.
Qed.
Lemma seen_small d : (length d <= 255)%nat -> seen d = d.
Proof. intros H. unfold seen. rewrite Nat.mod_small by lia. apply firstn_all. Qed.
Lemma seen_head d x y : seen d = x :: y -> nth_error d 0 = Some x.
Proof. unfold seen. destruct d; [now destruct (length _ mod 256)%nat|]. destruct (_ mod 256)%nat; cbn; congruence. Qed.

Lemma flag_ok z raw o : inv z raw -> Forall byte raw -> fail_ok raw ->
  exists z', trazer_parse z o 0x7E = Ok (z', fold_left effect (verdicts_seen raw) o, verdicts_seen raw) /\ inv z' [].
Proof.
  intros Hi Hby Hf. destruct (inv_flag z raw [] Hi) as (I1 & I2 & _). pose proof Hi as [G H]. unfold fail_ok, verdicts_seen in *.
  rewrite unescape_coll in *. pose proof (coll_bytes raw Hby) as Hb. destruct (coll raw) as [d p] eqn:E. cbn [fst snd] in *.
  destruct H as (H1 & H2 & H3 & H4). unfold trazer_parse. rewrite H1. destruct p; cbn [N.eqb Pos.eqb TZ_FLG].
  - eexists. split; [reflexivity|exact I1].
  - specialize (I2 H1). unfold parser_chk. rewrite H4, (seen_trix _ _ H3), chk_sum by lia. cbn [N.add].
    specialize (Hf d eq_refl).
    destruct (N.ltb_spec 0 (u8 (N.of_nat (length d)))) as [Hk | Hk].
    + destruct (seen d) as [|x sd] eqn:Es.
      { exfalso. apply (f_equal (@length N)) in Es. unfold seen in Es. rewrite firstn_length in Es. change (length (@nil N)) with 0%nat in Es.
        pose proof (Nat.mod_le (length d) 256 ltac:(lia)). unfold u8 in Hk.
        assert (N.of_nat (length d) mod 256 = N.of_nat (length d mod 256)) as Hq by (rewrite Nat2N.inj_mod; reflexivity). lia. }
      cbn [verdict]. destruct (sum (x :: sd) mod 256 =? 0) eqn:Ec.
      * apply N.eqb_eq in Ec. specialize (Hf Ec). pose proof (seen_head _ _ _ Es) as Hx.
        unfold parser. rewrite (firstn_all_app _ _ H3). destruct d as [|x' d]; [discriminate|]. cbn in Hx. injection Hx as ->.
        cbn [app rd nth_error bind]. change TE_UT_FAIL with 233. change TE_UT_SUCCESS with 232.
        destruct (N.eqb_spec x 233) as [-> | Hx].
        -- destruct (Hf eq_refl) as [Hl Hm]. rewrite seen_small in Es by exact Hl. injection Es as ->.
           destruct (utFail_ok z o _ G H3 Hb eq_refl Hm) as (sym & Eu & Hs). rewrite Eu. cbn [bind].
           eexists. split; [reflexivity|]. destruct (inv_flag z raw sym Hi) as (_ & _ & I3). apply I3; [|exact H1].
           split; [exact (proj1 G)|exact Hs].
        -- destruct (N.eqb_spec x 232) as [-> | Hx2]; cbn [bind].
           ++ eexists. split; [|exact I2]. reflexivity.
           ++ eexists. split; [|exact I2]. cbn [fold_left effect]. replace (x =? 233) with false by (symmetry; now apply N.eqb_neq).
              replace (x =? 232) with false by (symmetry; now apply N.eqb_neq). reflexivity.
      * eexists. split; [|exact I2]. unfold utProcFail. rewrite strncpy_padded by (cbn; lia). reflexivity.
    + assert (Hz : (length d mod 256 = 0)%nat).
      { unfold u8 in Hk. assert (N.of_nat (length d) mod 256 = N.of_nat (length d mod 256)) as Hq by (rewrite Nat2N.inj_mod; reflexivity). lia. }
      unfold seen. rewrite Hz. cbn. eexists. split; [reflexivity|exact I2].
Qed.

(** ** Any number of bytes *)
Lemma coll_mono raw x : (length (fst (coll raw)) <= length (fst (coll (raw ++ x))))%nat.
Proof.
  induction x as [|b x IH] using rev_ind; [rewrite app_nil_r; lia|]. rewrite app_assoc, coll_snoc.
  destruct (coll (raw ++ x)) as [d p]. cbn [fst] in IH. cbn [ustep]. destruct p; [|destruct (b =? 0x7D)]; cbn [fst]; rewrite ?app_length; lia.
Qed.
Lemma piece_first l : forall acc, exists x, In (rev acc ++ x) (frames_ acc l ++ [rest_ acc l]).
Proof.
  induction l as [|b l IH]; intros acc; cbn [frames_ rest_ app].
  - exists []. rewrite app_nil_r. now left.
  - destruct (b =? 0x7E).
    + exists []. rewrite app_nil_r. now left.
    + destruct (IH (b :: acc)) as (x & Hx). exists (b :: x). cbn [rev] in Hx. rewrite <- app_assoc in Hx. exact Hx.
Qed.
Lemma run_ok l : forall z o acc, inv z (rev acc) -> Forall byte (rev acc ++ l) ->
  Forall (fun f => (length (bytes_of f) <= 512)%nat) (frames_ acc l ++ [rest_ acc l]) -> Forall fail_ok (frames_ acc l) ->
  exists z', trazer_run z o l = Ok (z', fold_left effect (flat_map verdicts_seen (frames_ acc l)) o, flat_map verdicts_seen (frames_ acc l)) /\
    inv z' (rest_ acc l).
Proof.
  induction l as [|b l IH]; intros z o acc Hi Hb Hs Hf; cbn [frames_ rest_ trazer_run flat_map fold_left] in *.
  - eauto.
  - destruct (N.eqb_spec b 0x7E) as [-> | Hn].
    + apply Forall_app in Hb. destruct Hb as [Hb1 Hb2]. inversion Hb2 as [|? ? _ Hb3]; subst. cbn [app] in Hs. inversion Hs as [|? ? _ Hs2]; subst.
      inversion Hf as [|? ? Hf1 Hf2]; subst. destruct (flag_ok z (rev acc) o Hi Hb1 Hf1) as (z' & E & Hi'). rewrite E. cbn [bind].
      destruct (IH z' (fold_left effect (verdicts_seen (rev acc)) o) [] Hi' Hb3 Hs2 Hf2) as (z2 & E2 & Hi2). rewrite E2. cbn [bind].
      exists z2. split; [|exact Hi2]. cbn [flat_map]. rewrite fold_left_app. reflexivity.
    + destruct (step_ok z (rev acc) b o Hi Hn) as (z' & E & Hi').
      { destruct (piece_first l (b :: acc)) as (x & Hx). rewrite Forall_forall in Hs. specialize (Hs _ Hx). rewrite bytes_coll in *.
        pose proof (coll_mono (rev acc ++ [b]) x). cbn [rev] in Hs. lia. }
      rewrite E. cbn [bind]. destruct (IH z' o (b :: acc) Hi') as (z2 & E2 & Hi2); [|exact Hs|exact Hf|].
      * cbn [rev]. rewrite <- app_assoc. exact Hb.
      * rewrite E2. cbn [bind]. eauto.
Qed.
Lemma exact_ z o l : tz_good z -> Forall byte l -> Forall (fun f => (length (bytes_of f) <= 512)%nat) (pieces l) -> Forall fail_ok (frames l) ->
  exists z', trazer_run (trazer_init z) o l =
    Ok (z', fold_left effect (flat_map verdicts_seen (frames l)) o, flat_map verdicts_seen (frames l)) /\ tz_good z'.
Proof.
  intros G Hb Hs Hf. destruct (run_ok l (trazer_init z) o [] (inv_init z G) Hb Hs Hf) as (z' & E & Hi). exists z'. split; [exact E|exact (proj1 Hi)].
Qed.
Lemma verdicts_short f : (length (bytes_of f) <= 255)%nat -> verdicts_seen f = verdicts f.
Proof.
  unfold verdicts_seen, verdicts, bytes_of. destruct (unescape f); [|reflexivity]. intros H. now rewrite seen_small.
Qed.
Lemma in_frames f l : In f (frames l) -> In f (pieces l).
Proof. intros H. apply in_or_app. now left. Qed.
Lemma reads z o l : tz_good z -> Forall byte l -> Forall (fun f => (length (bytes_of f) <= 255)%nat) (pieces l) -> Forall fail_ok (frames l) ->
  exists z', trazer_run (trazer_init z) o l =
    Ok (z', fold_left effect (flat_map verdicts (frames l)) o, flat_map verdicts (frames l)) /\ tz_good z'.
Proof.
  intros G Hb Hs Hf. destruct (exact_ z o l G Hb) as (z' & E & G'); [|exact Hf|].
  - eapply Forall_impl; [|exact Hs]. cbn. intros; lia.
  - exists z'. split; [|exact G'].
    replace (flat_map verdicts (frames l)) with (flat_map verdicts_seen (frames l)); [exact E|].
    clear -Hs. unfold pieces in Hs. apply Forall_app in Hs. destruct Hs as [Hs _]. induction Hs as [|f F H _ IH]; [reflexivity|].
    cbn. now rewrite IH, verdicts_short.
Qed.
Lemma skip_to_flag z o l : z_state z = WFlag -> forall g, ~ In 0x7E g -> trazer_run z o (g ++ 0x7E :: l) = trazer_run (trazer_init z) o l.
Proof.
  intros Hz. induction g as [|b g IH]; intros Hg; cbn [app trazer_run].
  - unfold trazer_parse. rewrite Hz. cbn [TZ_FLG N.eqb Pos.eqb bind]. fold (trazer_init z).
    destruct (trazer_run (trazer_init z) o l) as [[[? ?] ?]|]; reflexivity.
  - unfold trazer_parse at 1. rewrite Hz. change TZ_FLG with 0x7E. destruct (N.eqb_spec b 0x7E) as [-> | Hb]; [exfalso; apply Hg; now left|].
    cbn [bind]. rewrite IH by (intros Hx; apply Hg; now right). destruct (trazer_run (trazer_init z) o l) as [[[? ?] ?]|]; reflexivity.
Qed.

(** ** What the recorder writes *)
Lemma frames_cut l : In 0x7E l -> exists g l', l = g ++ 0x7E :: l' /\ ~ In 0x7E g /\ frames l = g :: frames l' /\ rest l = rest l'.
Proof.
  assert (H : forall l acc, In 0x7E l -> exists g l', l = g ++ 0x7E :: l' /\ ~ In 0x7E g /\ frames_ acc l = (rev acc ++ g) :: frames_ [] l' /\ rest_ acc l = rest_ [] l').
  { clear l. induction l as [|b l IH]; intros acc; [easy|]. intros [-> | H].
    - exists [], l. repeat split; auto. cbn. now rewrite app_nil_r.
    - destruct (N.eqb_spec b 0x7E) as [-> | Hb].
      + exists [], l. repeat split; auto. cbn. now rewrite app_nil_r.
      + destruct (IH (b :: acc) H) as (g & l' & -> & H1 & H2 & H3). exists (b :: g), l'. repeat split.
        * intros [E | E]; auto.
        * cbn [app frames_]. replace (b =? 0x7E) with false by (symmetry; now apply N.eqb_neq). rewrite H2. cbn [rev]. now rewrite <- app_assoc.
        * cbn [app rest_]. replace (b =? 0x7E) with false by (symmetry; now apply N.eqb_neq). exact H3. }
  exact (H l []).
Qed.
Lemma rest_end l : forall acc, rest_ acc (l ++ [0x7E]) = [].
Proof. induction l as [|b l IH]; intros acc; cbn [app rest_]; [reflexivity|]. destruct (b =? 0x7E); apply IH. Qed.
Lemma stream_end e F : exists x, stream_of (e :: F) = x ++ [0x7E].
Proof.
  revert e. induction F as [|f F IH]; intros e.
  - exists e. cbn. now rewrite app_nil_r.
  - destruct (IH f) as (x & E). exists ((e ++ [FLG]) ++ x). change (stream_of (e :: f :: F)) with ((e ++ [FLG]) ++ stream_of (f :: F)). rewrite E. apply app_assoc.
Qed.
Lemma lastn_end n x (b : N) : (1 <= n)%nat -> exists y, lastn n (x ++ [b]) = y ++ [b].
Proof.
  intros H. unfold lastn. rewrite app_length. cbn [length]. rewrite skipn_app. replace (length x + 1 - n - length x)%nat with 0%nat by lia.
  cbn [skipn]. eauto.
Qed.
Lemma esc_bytes d : byte d -> Forall byte (esc d).
Proof.
  intros H. unfold esc. destruct (_ || _)%bool.
  - constructor; [reflexivity|]. constructor; [now apply lxor_byte|constructor].
  - constructor; [exact H|constructor].
Qed.
Lemma escs_bytes ds : Forall byte ds -> Forall byte (flat_map esc ds).
Proof. induction 1; [constructor|]. cbn. apply Forall_app. split; [now apply esc_bytes|assumption]. Qed.
Lemma sum_chk0 l : sum (l ++ [(256 - sum l mod 256) mod 256]) mod 256 = 0.
Proof.
  rewrite sum_app. cbn [sum fold_right]. rewrite N.add_0_r. pose proof (N.mod_lt (sum l) 256 ltac:(discriminate)) as Hm.
  rewrite N.add_mod_idemp_r by discriminate. rewrite <- N.add_mod_idemp_l by discriminate.
  replace (sum l mod 256 + (256 - sum l mod 256)) with 256 by lia. reflexivity.
Qed.
Section Recorder.
Context (c : rccfg).
Hypothesis Hchk : rc_chk c = true.
Lemma contents_eq rs : forall i, contents c i rs = map (fun d => flat_map esc d) (datas c i rs).
Proof. induction rs as [|r rs IH]; intros i; [reflexivity|]. cbn [contents datas map]. rewrite IH, body_data, content_chk. reflexivity. Qed.
Lemma data_sum l : sum (with_chk c l) mod 256 = 0.
Proof. unfold with_chk. rewrite Hchk. apply sum_chk0. Qed.
Lemma data_nonempty l : with_chk c l <> [].
Proof. unfold with_chk. rewrite Hchk. now destruct l. Qed.
Lemma verdicts_data l : verdicts (flat_map esc (with_chk c l)) = [CallParser (with_chk c l)].
Proof.
  unfold verdicts. rewrite unescape_escs. unfold verdict. pose proof (data_nonempty l). destruct (with_chk c l) eqn:E; [congruence|].
  rewrite <- E, data_sum. reflexivity.
Qed.
Lemma reads_datas z o l i rs : rc_cfg_ok c -> tz_good z -> Forall byte l -> frames l = contents c i rs -> rest l = [] ->
  Forall (fun d => (length d <= 255)%nat) (datas c i rs) -> Forall (fun r => r_id r mod 256 <> 233) rs ->
  exists z', trazer_run (trazer_init z) o l =
    Ok (z', fold_left effect (map CallParser (datas c i rs)) o, map CallParser (datas c i rs)) /\ tz_good z'.
Proof.
  intros (_ & Hid & _) G Hb Hf Hr Hl Hn. destruct (reads z o l G Hb) as (z' & E & G').
  - unfold pieces. rewrite Hf, Hr, contents_eq. apply Forall_app. split; [|constructor; [cbn; lia|constructor]].
    apply Forall_map. eapply Forall_impl; [|exact Hl]. cbn. intros d Hd. unfold bytes_of. rewrite unescape_escs. exact Hd.
  - rewrite Hf. clear -Hn Hid. revert i. induction Hn as [|r rs Hr Hn IH]; intros i; constructor; [|apply IH].
    intros d Hd _ H0. rewrite unescape_escs in Hd. injection Hd as <-. exfalso. apply Hr.
    destruct (seen _) as [|x y] eqn:Es in H0; [discriminate|]. cbn in H0. injection H0 as ->. apply seen_head in Es. rename Es into H0.
    rewrite body_data, content_chk in H0. unfold with_chk, rec_data in H0.
    assert (H1 : forall y, nth_error (le (rc_idw c) (r_id r) ++ y) 0 = Some (r_id r mod 256)) by (intros y0; destruct Hid as [-> | [-> | ->]]; reflexivity).
    destruct (rc_chk c); rewrite <- ?app_assoc, H1 in H0; congruence.
  - exists z'. split; [|exact G']. rewrite E, Hf.
    replace (flat_map verdicts (contents c i rs)) with (map CallParser (datas c i rs)); [reflexivity|].
    clear -Hchk. revert i. induction rs as [|r rs IH]; intros i; [reflexivity|]. cbn [datas map contents flat_map].
    rewrite IH, body_data. change (content c (rec_data c i r)) with (with_chk c (rec_data c i r)). rewrite verdicts_data. reflexivity.
Qed.
Lemma contents_bytes rs : Forall rec_ok rs -> forall i, Forall byte (stream_of (contents c i rs)).
Proof.
  intros Hrs. induction Hrs as [|r rs Hr _ IH]; intros i; [constructor|]. cbn [contents stream_of flat_map]. apply Forall_app. split; [|apply IH].
  apply Forall_app. split; [|repeat constructor]. rewrite body_data, content_chk. apply escs_bytes. now apply data_bytes.
Qed.
Lemma skipn_forall {A} (P : A -> Prop) n l : Forall P l -> Forall P (skipn n l).
Proof. intros H. rewrite <- (firstn_skipn n l) in H. apply Forall_app in H. exact (proj2 H). Qed.
Lemma datas_skip rs : forall i j, skipn j (datas c i rs) = datas c (i + j) (skipn j rs).
Proof.
  induction rs as [|r rs IH]; intros i [|j]; cbn [datas skipn]; rewrite ?Nat.add_0_r; auto. rewrite IH. f_equal. lia.
Qed.
Lemma reads_recorder z o buf rs : rc_cfg_ok c -> length buf = sz (rc_st c) -> Forall rec_ok rs ->
  Forall (fun d => (length d <= 255)%nat) (datas c 0 rs) -> Forall (fun r => r_id r mod 256 <> 233) rs ->
  tz_good z -> z_state z = WFlag ->
  exists t0 t w z' j, trc_init c buf = Ok t0 /\ do_recs c t0 rs = Ok t /\ readout c t = Ok w /\
    trazer_run z o w = Ok (z', fold_left effect (map CallParser (datas c j (skipn j rs))) o, map CallParser (datas c j (skipn j rs))) /\
    forall j', (j' <= length rs)%nat -> (1 + costs c j' (skipn j' rs) <= sz (rc_st c))%nat -> (j <= j')%nat.
Proof.
  intros Hc HL Hr Hl Hn G Hz. destruct Hc as (Hs & Hid & Hts).
  destruct (init_recs c Hs Hid Hts buf rs HL Hr) as (t0 & t & w & E0 & E1 & E2 & Ew).
  assert (HF : Forall flagfree ([] :: contents c 0 rs)) by (constructor; [constructor|apply contents_flagfree]).
  destruct (frames_suffix _ HF (length (stream_of ([] :: contents c 0 rs)) - sz (rc_st c))) as (j & Ej & H1 & Hmin).
  destruct j as [|j]; [exfalso; specialize (H1 ltac:(discriminate)); lia|]. cbn [skipn] in Ej. rewrite contents_skip in Ej by exact Hts. cbn [Nat.add] in Ej.
  fold (lastn (sz (rc_st c)) (stream_of ([] :: contents c 0 rs))) in Ej. rewrite <- Ew in Ej.
  destruct (stream_end [] (contents c 0 rs)) as (x & Ex). destruct (lastn_end (sz (rc_st c)) x 0x7E) as (y & Ey).
  { destruct Hs. lia. }
  rewrite Ex, Ey in Ew.
  destruct (frames_cut w) as (g & l' & Eg & Hg & Fg & Rg); [rewrite Ew; apply in_or_app; right; now left|].
  rewrite Fg in Ej. cbn [tl] in Ej.
  assert (Hw : Forall byte w).
  { rewrite Ew, <- Ey, <- Ex. unfold lastn. apply skipn_forall. cbn [stream_of flat_map app]. constructor; [reflexivity|]. apply contents_bytes. exact Hr. }
  assert (Hl' : Forall byte l'). { rewrite Eg in Hw. apply Forall_app in Hw. destruct Hw as [_ Hw]. now inversion Hw. }
  destruct (reads_datas z o l' j (skipn j rs) (conj Hs (conj Hid Hts)) G Hl' Ej) as (z' & E & G').
  - rewrite <- Rg, Ew. apply rest_end.
  - change j with (0 + j)%nat at 1. rewrite <- datas_skip. now apply skipn_forall.
  - now apply skipn_forall.
  - exists t0, t, w, z', j. repeat split; auto.
    + rewrite Eg, skip_to_flag by assumption. exact E.
    + intros j' Hj' HS. rewrite <- contents_cost in HS.
      assert (S j <= S j')%nat; [|lia]. apply Hmin.
      * cbn [length]. rewrite contents_len. lia.
      * cbn [skipn]. rewrite contents_skip by exact Hts. cbn [Nat.add].
        assert (HT : (length (stream_of (contents c j' (skipn j' rs))) + 1 <= length (stream_of ([] :: contents c 0 rs)))%nat).
        { cbn [stream_of flat_map app length]. fold (stream_of (contents c 0 rs)).
          rewrite <- (firstn_skipn j' (contents c 0 rs)), contents_skip by exact Hts. cbn [Nat.add].
          unfold stream_of at 2. rewrite flat_map_app, app_length. fold (stream_of (contents c j' (skipn j' rs))). lia. }
        lia.
Qed.
Lemma reads_recorder_init z o buf rs : rc_cfg_ok c -> length buf = sz (rc_st c) -> Forall rec_ok rs ->
  Forall (fun d => (length d <= 255)%nat) (datas c 0 rs) -> Forall (fun r => r_id r mod 256 <> 233) rs ->
  (1 + costs c 0 rs <= sz (rc_st c))%nat -> tz_good z ->
  exists t0 t w z', trc_init c buf = Ok t0 /\ do_recs c t0 rs = Ok t /\ readout c t = Ok w /\
    trazer_run (trazer_init z) o w = Ok (z', fold_left effect (map CallParser (datas c 0 rs)) o, map CallParser (datas c 0 rs)).
Proof.
  intros Hc HL Hr Hl Hn Hfit G. pose proof Hc as (Hs & Hid & Hts).
  destruct (init_recs c Hs Hid Hts buf rs HL Hr) as (t0 & t & w & E0 & E1 & E2 & Ew).
  assert (Hlen : length (stream_of ([] :: contents c 0 rs)) = (1 + costs c 0 rs)%nat).
  { cbn [stream_of flat_map app length]. fold (stream_of (contents c 0 rs)). now rewrite contents_cost. }
  rewrite lastn_all in Ew by lia. change (stream_of ([] :: contents c 0 rs)) with (0x7E :: stream_of (contents c 0 rs)) in Ew.
  destruct (reads_datas (trazer_init z) o (stream_of (contents c 0 rs)) 0 rs Hc) as (z' & E & G'); auto.
  - now apply contents_bytes.
  - apply frames_stream, contents_flagfree.
  - destruct (contents c 0 rs) as [|e F]; [reflexivity|]. destruct (stream_end e F) as (x & ->). apply rest_end.
  - exists t0, t, w, z'. repeat split; auto. rewrite Ew. cbn [trazer_run]. unfold trazer_parse, trazer_init at 1.
    cbn [z_state set_state TZ_FLG N.eqb Pos.eqb parser_init z_trix N.ltb N.compare bind].
    change (0 <? z_trix (trazer_init z)) with false. cbn [bind]. change (parser_init (trazer_init z)) with (trazer_init (trazer_init z)). rewrite E. reflexivity.
Qed.
End Recorder.

(** ** A report of a failed test *)
Lemma le4_unle line : unle (le 4 line) = line mod 2 ^ 32.
Proof. rewrite unle_le. reflexivity. Qed.
Lemma cstr_term m y : ~ In 0 m -> cstr (m ++ 0 :: y) = m ++ [0].
Proof.
  induction m as [|b m IH]; intros H; [reflexivity|]. cbn. destruct (N.eqb_spec b 0) as [-> | Hb]; [exfalso; apply H; now left|].
  rewrite IH; [reflexivity|]. intros Hx. apply H. now right.
Qed.
Lemma stuffed_reads z o d : tz_good z -> Forall byte d -> (1 <= length d <= 255)%nat -> sum d mod 256 = 0 ->
  (nth_error d 0 = Some 233 -> In 0 (firstn 16 (skipn 5 d))) ->
  exists z', trazer_run (trazer_init z) o (stuffed d) = Ok (z', effect o (CallParser d), [CallParser d]) /\ tz_good z'.
Proof.
  intros G Hd Hl Hs Hm. change (stuffed d) with (flat_map esc d ++ [0x7E]).
  assert (Hff : flagfree (flat_map esc d)) by apply escs_noflag.
  assert (Hf : frames (flat_map esc d ++ [0x7E]) = [flat_map esc d]).
  { unfold frames. change 0x7E with FLG. rewrite (frames_app _ Hff []). reflexivity. }
  destruct (reads z o (flat_map esc d ++ [0x7E]) G) as (z' & E & G').
  - apply Forall_app. split; [now apply escs_bytes|repeat constructor].
  - unfold pieces. rewrite Hf. unfold rest. rewrite rest_end. constructor; [|constructor; [cbn; lia|constructor]].
    unfold bytes_of. rewrite unescape_escs. lia.
  - rewrite Hf. constructor; [|constructor]. intros d' Hd' _ H0. rewrite unescape_escs in Hd'. injection Hd' as <-. rewrite seen_small in H0 by lia. split; [lia|auto].
  - exists z'. split; [|exact G']. rewrite E, Hf. cbn [flat_map]. rewrite app_nil_r. unfold verdicts. rewrite unescape_escs.
    destruct d as [|x d]; [cbn in Hl; lia|]. unfold verdict. rewrite Hs. reflexivity.
Qed.
Lemma fail_report z o line m : tz_good z -> Forall byte m -> ~ In 0 m -> (length m <= 15)%nat ->
  let d := 233 :: le 4 line ++ m ++ [0] in let k := (256 - sum d mod 256) mod 256 in
  exists z', trazer_run (trazer_init z) o (stuffed (d ++ [k])) = Ok (z', mkOut UtFail (padded m) (line mod 2 ^ 32), [CallParser (d ++ [k])]) /\ tz_good z'.
Proof.
  intros G Hb H0 Hm d k.
  assert (Hd : Forall byte (d ++ [k])).
  { apply Forall_app. split.
    - constructor; [reflexivity|]. apply Forall_app. split; [apply le_bytes|]. apply Forall_app. split; [exact Hb|repeat constructor].
    - constructor; [|constructor]. unfold byte. apply N.mod_lt. lia. }
  destruct (stuffed_reads z o (d ++ [k]) G Hd) as (z' & E & G').
  - unfold d. rewrite app_length. cbn [length]. rewrite !app_length, le_len. cbn. lia.
  - apply sum_chk0.
  - intros _. unfold d. cbn [le app skipn]. rewrite <- !app_assoc. rewrite firstn_app. rewrite firstn_all2 by lia. apply in_or_app. right.
    destruct (16 - length m)%nat eqn:En; [lia|]. now left.
  - exists z'. split; [|exact G']. rewrite E. replace (effect o (CallParser (d ++ [k]))) with (mkOut UtFail (padded m) (line mod 2 ^ 32)); [reflexivity|].
    unfold effect, d. cbn [app N.eqb Pos.eqb]. f_equal.
    + cbn [le app skipn]. rewrite <- app_assoc. cbn [app]. rewrite cstr_term by exact H0. now rewrite removelast_last.
    + rewrite <- le4_unle. reflexivity.
Qed.
Lemma lost256 d : Forall byte d -> length d = 256%nat -> exists z', trazer_run (trazer_init tz0) out0 (stuffed d) = Ok (z', out0, []).
Proof.
  intros Hd Hl. change (stuffed d) with (flat_map esc d ++ [0x7E]).
  assert (Hff : flagfree (flat_map esc d)) by apply escs_noflag.
  assert (Hf : frames (flat_map esc d ++ [0x7E]) = [flat_map esc d]).
  { unfold frames. change 0x7E with FLG. rewrite (frames_app _ Hff []). reflexivity. }
  assert (Hs : seen d = []) by (unfold seen; rewrite Hl; reflexivity).
  destruct (exact_ tz0 out0 (flat_map esc d ++ [0x7E])) as (z' & E & _).
  - split; reflexivity.
  - apply Forall_app. split; [now apply escs_bytes|repeat constructor].
  - unfold pieces. rewrite Hf. unfold rest. rewrite rest_end. constructor; [|constructor; [cbn; lia|constructor]].
    unfold bytes_of. rewrite unescape_escs. lia.
  - rewrite Hf. constructor; [|constructor]. intros d' Hd' _ H0. rewrite unescape_escs in Hd'. injection Hd' as <-.
    rewrite Hs in H0. discriminate.
  - exists z'. rewrite E, Hf. cbn [flat_map]. unfold verdicts_seen. rewrite unescape_escs, Hs. reflexivity.
Qed.
