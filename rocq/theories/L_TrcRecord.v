(** Proofs: records survive the trip through the stream. *)
From Verif Require Import Base L_Base M_TrcStream S_TrcStream L_TrcStream M_TrcRecord S_TrcRecord.
Local Open Scope N_scope.

(** *** Little endian *)
Lemma mod_lo d m : m <> 0 -> (d mod (256 * m)) mod 256 = d mod 256.
Proof.
  intros Hm. rewrite N.mod_mul_r by (auto; discriminate).
  rewrite N.mul_comm, N.mod_add by discriminate. apply N.mod_mod; discriminate.
Qed.
Lemma mod_hi d m : m <> 0 -> (d mod (256 * m)) / 256 = (d / 256) mod m.
Proof.
  intros Hm. rewrite N.mod_mul_r by (auto; discriminate).
  rewrite N.mul_comm, N.div_add by discriminate.
  rewrite N.div_small by (apply N.mod_lt; discriminate). lia.
Qed.

Lemma pow256_S w : 256 ^ N.of_nat (S w) = 256 * 256 ^ N.of_nat w.
Proof. rewrite Nat2N.inj_succ, N.pow_succ_r'. reflexivity. Qed.
Lemma pow256_nz w : 256 ^ N.of_nat w <> 0.
Proof. apply N.pow_nonzero. discriminate. Qed.

Lemma le_mod w : forall d, le w (d mod 256 ^ N.of_nat w) = le w d.
Proof.
  induction w as [|w IH]; intros d; [reflexivity|]. cbn [le]. rewrite pow256_S.
  rewrite mod_lo, mod_hi by apply pow256_nz. now rewrite IH.
Qed.

Lemma unle_le w : forall d, unle (le w d) = d mod 256 ^ N.of_nat w.
Proof.
  induction w as [|w IH]; intros d; cbn [le unle].
  - simpl. now rewrite N.mod_1_r.
  - rewrite IH, pow256_S. rewrite (N.mod_mul_r d 256) by (try discriminate; apply pow256_nz). reflexivity.
Qed.

Lemma le_len w d : length (le w d) = w.
Proof. revert d; induction w; intros; simpl; auto. Qed.

Lemma le_bytes w d : Forall byte (le w d).
Proof. revert d; induction w; intros; constructor; auto. apply N.mod_lt. discriminate. Qed.

(** *** Escaping *)
Definition esc (d : N) : list N :=
  if (d =? FLG) || (d =? ESC) then [ESC; N.lxor d XOR] else [d].

Lemma esc_noflag d : Forall (fun b => b <> FLG) (esc d).
Proof.
  unfold esc. destruct (N.eqb_spec d FLG) as [->|H1]; [repeat constructor; discriminate|].
  destruct (N.eqb_spec d ESC) as [->|H2]; [repeat constructor; discriminate|].
  repeat constructor; auto.
Qed.

Lemma escs_noflag ds : Forall (fun b => b <> FLG) (flat_map esc ds).
Proof. induction ds; simpl; [constructor|]. apply Forall_app. split; auto using esc_noflag. Qed.

Lemma unescape_esc d l : unescape (esc d ++ l) = match unescape l with Some r => Some (d :: r) | None => None end.
Proof.
  unfold esc. destruct (N.eqb_spec d FLG) as [->|H1]; [reflexivity|].
  destruct (N.eqb_spec d ESC) as [->|H2]; [reflexivity|].
  cbn [orb app unescape]. apply N.eqb_neq in H2. change 0x7D with ESC. now rewrite H2.
Qed.

Lemma unescape_escs ds : unescape (flat_map esc ds) = Some ds.
Proof.
  induction ds as [|d ds IH]; [reflexivity|]. cbn [flat_map]. rewrite unescape_esc, IH. reflexivity.
Qed.

(** *** Frames *)
Definition stream_of (F : list (list N)) : list N := flat_map (fun e => e ++ [FLG]) F.
Definition flagfree (e : list N) : Prop := Forall (fun b => b <> FLG) e.

Lemma frames_app e : flagfree e -> forall acc l, frames_ acc (e ++ FLG :: l) = (rev acc ++ e) :: frames_ [] l.
Proof.
  induction 1 as [|b e Hb He IH]; intros acc l.
  - cbn [app frames_]. rewrite N.eqb_refl. now rewrite app_nil_r.
  - cbn [app frames_]. apply N.eqb_neq in Hb. change 0x7E with FLG. rewrite Hb, IH. cbn [rev]. now rewrite <- app_assoc.
Qed.

Lemma frames_stream F : Forall flagfree F -> frames (stream_of F) = F.
Proof.
  unfold frames. induction 1 as [|e F He HF IH]; [reflexivity|].
  cbn [stream_of flat_map]. rewrite <- app_assoc. cbn [app].
  rewrite (frames_app e He). cbn [rev app]. f_equal. exact IH.
Qed.

Lemma frames_suffix F : Forall flagfree F -> forall k,
  exists j, tl (frames (skipn k (stream_of F))) = skipn j F /\ (F <> [] -> 1 <= j)%nat /\
    forall j', (1 <= j' <= length F)%nat ->
      (1 + length (stream_of (skipn j' F)) <= length (stream_of F) - k)%nat -> (j <= j')%nat.
Proof.
  induction 1 as [|e F He HF IH]; intros k.
  - exists 0%nat. rewrite skipn_nil. split; [reflexivity|]. split; [congruence|]. simpl. lia.
  - assert (ES : stream_of (e :: F) = e ++ FLG :: stream_of F)
      by (unfold stream_of; cbn [flat_map]; now rewrite <- app_assoc).
    rewrite ES. rewrite skipn_app. destruct (Nat.le_gt_cases k (length e)) as [Hk|Hk].
    + exists 1%nat. replace (k - length e)%nat with 0%nat by lia. cbn [skipn].
      unfold frames. rewrite frames_app.
      * cbn [rev app tl]. split; [now apply frames_stream|]. split; [auto|]. intros; lia.
      * clear - He. unfold flagfree in *. revert k. induction He; intros [|k]; simpl; auto.
    + destruct (k - length e)%nat as [|k'] eqn:Ek; [lia|]. cbn [skipn].
      rewrite (skipn_all2 e) by lia. cbn [app].
      destruct (IH k') as (j & E & _ & Hmin). exists (S j). split; [exact E|]. split; [lia|].
      intros j' Hj' HL. rewrite app_length in HL. cbn [length] in HL.
      destruct j' as [|j']; [lia|]. cbn [skipn] in HL. cbn [length] in Hj'.
      destruct j' as [|j'']; [cbn [skipn] in HL; lia|].
      assert (j <= S j'')%nat; [|lia]. apply Hmin; lia.
Qed.

(** *** Writing *)
Section Rec.
Context (c : rccfg).
Hypothesis Hc : st_cfg_ok (rc_st c).
Notation SZ := (sz (rc_st c)).

Definition em (f : trc -> res trc) (ds : list N) : Prop :=
  forall t l, st_rel (rc_st c) (t_stm t) l -> exists t', f t = Ok t' /\
    st_rel (rc_st c) (t_stm t') (lastn SZ (l ++ flat_map esc ds)) /\
    t_chk t' mod 256 = (t_chk t + sum ds) mod 256 /\ t_nseq t' = t_nseq t.

Lemma sum_app l1 l2 : sum (l1 ++ l2) = sum l1 + sum l2.
Proof. induction l1; cbn [app sum fold_right]; [reflexivity|]. fold (sum (l1 ++ l2)) (sum l1). lia. Qed.

Lemma em_nil : em (fun t => Ok t) [].
Proof.
  intros t l R. exists t. cbn [flat_map sum fold_right]. rewrite app_nil_r, N.add_0_r.
  rewrite lastn_all by apply R. auto.
Qed.

Lemma em_bind f g d1 d2 : em f d1 -> em g d2 -> em (fun t => do t <- f t; g t) (d1 ++ d2).
Proof.
  intros Hf Hg t l R. destruct (Hf t l R) as (t1 & E1 & R1 & C1 & S1).
  destruct (Hg t1 _ R1) as (t2 & E2 & R2 & C2 & S2). exists t2. rewrite E1. cbn [bind].
  split; [exact E2|]. split; [|split].
  - rewrite lastn_app1, <- app_assoc in R2. rewrite flat_map_app. exact R2.
  - rewrite C2, sum_app. rewrite N.add_assoc.
    rewrite <- (N.add_mod_idemp_l (t_chk t1)) by discriminate. rewrite C1.
    now rewrite N.add_mod_idemp_l by discriminate.
  - congruence.
Qed.

Lemma trc_raw_rel t l b : st_rel (rc_st c) (t_stm t) l -> exists t', trc_raw c t b = Ok t' /\
  st_rel (rc_st c) (t_stm t') (lastn SZ (l ++ [b])) /\ t_chk t' = t_chk t /\ t_nseq t' = t_nseq t.
Proof.
  intros R. destruct (st_put_rel (rc_st c) Hc (t_stm t) l b R) as (s & E & R1).
  unfold trc_raw. rewrite E. cbn [bind]. eexists. split; [reflexivity|]. auto.
Qed.

Lemma em_u8 d : em (fun t => trc_u8 c t d) [d mod 256].
Proof.
  intros t l R. unfold trc_u8. change (d mod 256) with (u8 d). set (t0 := mkTrc _ _ _).
  assert (R0 : st_rel (rc_st c) (t_stm t0) l) by exact R.
  assert (C0 : t_chk t0 mod 256 = (t_chk t + sum [u8 d]) mod 256).
  { unfold t0. cbn [t_chk sum fold_right]. rewrite N.add_0_r. unfold u8 at 1. now rewrite N.mod_mod by discriminate. }
  cbn [flat_map]. rewrite app_nil_r. unfold esc. destruct ((u8 d =? FLG) || (u8 d =? ESC)).
  - destruct (trc_raw_rel t0 l ESC R0) as (t1 & E1 & R1 & C1 & S1).
    destruct (trc_raw_rel t1 _ (N.lxor (u8 d) XOR) R1) as (t2 & E2 & R2 & C2 & S2).
    exists t2. rewrite E1. cbn [bind]. split; [exact E2|]. rewrite lastn_app1, <- app_assoc in R2.
    split; [exact R2|]. split; [now rewrite C2, C1|now rewrite S2, S1].
  - destruct (trc_raw_rel t0 l (u8 d) R0) as (t1 & E1 & R1 & C1 & S1).
    exists t1. split; [exact E1|]. split; [exact R1|]. split; [now rewrite C1|now rewrite S1].
Qed.

Lemma em_eq f ds ds' : ds = ds' -> em f ds -> em f ds'.
Proof. intros ->; auto. Qed.

Lemma em_u16 d : em (fun t => trc_u16 c t d) (le 2 d).
Proof.
  unfold trc_u16. eapply em_eq; [|apply em_bind; apply em_u8]. unfold u16.
  rewrite <- (le_mod 2 d). change (256 ^ N.of_nat 2) with 65536. rewrite N.shiftr_div_pow2. reflexivity.
Qed.

Lemma em_u32 d : em (fun t => trc_u32 c t d) (le 4 d).
Proof.
  unfold trc_u32. eapply em_eq; [|apply em_bind; [apply em_u8|apply em_bind; [apply em_u8|apply em_bind; apply em_u8]]].
  unfold u32. rewrite <- (le_mod 4 d). change (256 ^ N.of_nat 4) with 4294967296.
  rewrite !N.shiftr_div_pow2. reflexivity.
Qed.

Lemma em_width w d : width_ok w -> em (fun t => trc_width c w t d) (le w d).
Proof. intros [->|[->| ->]]; cbn [trc_width]; [apply em_u8|apply em_u16|apply em_u32]. Qed.

Lemma mod_bytes ds : Forall byte ds -> map (fun d => d mod 256) ds = ds.
Proof. induction 1; simpl; auto. rewrite N.mod_small by auto. congruence. Qed.

Lemma em_str m : Forall byte m -> In 0 m -> em (fun t => trc_str c t m) (cstr m).
Proof.
  induction 1 as [|ch m Hb Hm IH]; intros H0; [easy|]. cbn [trc_str cstr].
  destruct (N.eqb_spec ch 0) as [->|Hne]; [apply em_u8|].
  destruct H0 as [|H0]; [congruence|]. change (ch :: cstr m) with ([ch] ++ cstr m).
  apply em_bind; auto. eapply em_eq; [|apply em_u8]. now rewrite N.mod_small by auto.
Qed.

Lemma em_mem n : forall m, Forall byte m -> (n <= length m)%nat -> em (fun t => trc_mem_loop c t m n) (firstn n m).
Proof.
  induction n as [|n IH]; intros m Hm Hl; [destruct m; apply em_nil|]. destruct m as [|b m]; [simpl in Hl; lia|].
  inversion Hm; subst. cbn [trc_mem_loop firstn]. change (b :: firstn n m) with ([b] ++ firstn n m).
  apply em_bind; [|apply IH; auto; simpl in Hl; lia].
  eapply em_eq; [|apply em_u8]. now rewrite N.mod_small by auto.
Qed.

Lemma em_item i : item_ok i -> em (fun t => do_item c t i) (item_bytes i).
Proof.
  destruct i as [w d|m|f d|f d|f d|m|m n]; cbn [item_ok do_item item_bytes].
  - apply em_width.
  - intros []. now apply em_str.
  - intros _. apply em_bind; apply em_u8.
  - intros _. apply em_bind; [apply em_u8|apply em_u16].
  - intros _. apply em_bind; [apply em_u8|apply em_u32].
  - intros []. change (7 :: cstr m) with ([7 mod 256] ++ cstr m). apply em_bind; [apply em_u8|now apply em_str].
  - intros (Hm & Hn & Hl). unfold trc_fmt_mem. rewrite (u8_small n Hn).
    change (8 :: n :: firstn (N.to_nat n) m) with ([8 mod 256] ++ [n] ++ firstn (N.to_nat n) m).
    apply em_bind; [apply em_u8|]. apply em_bind; [|now apply em_mem].
    eapply em_eq; [|apply em_u8]. now rewrite N.mod_small.
Qed.

Lemma em_items l : Forall item_ok l -> em (fun t => do_items c t l) (flat_map item_bytes l).
Proof.
  induction 1; cbn [do_items flat_map]; [apply em_nil|]. apply em_bind; [now apply em_item|auto].
Qed.

(** Header, body and complete contents of a frame. *)
Hypothesis Hid : width_ok (rc_idw c).
Hypothesis Hts : rc_tsw c = 0%nat \/ width_ok (rc_tsw c).

Definition header (q : N) (id ts : N) : list N :=
  le (rc_idw c) id ++ (if rc_nseq c then [q mod 256] else []) ++ le (rc_tsw c) ts.
Definition body (q : N) (r : rec) : list N :=
  header q (r_id r) (r_ts r) ++ flat_map item_bytes (r_items r).
Definition chkbyte (l : list N) : N := (256 - sum l mod 256) mod 256.
Definition content (l : list N) : list N := if rc_chk c then l ++ [chkbyte l] else l.

Lemma trc_begin_rel t l id ts : st_rel (rc_st c) (t_stm t) l ->
  exists t', trc_begin c t id ts = Ok t' /\
    st_rel (rc_st c) (t_stm t') (lastn SZ (l ++ flat_map esc (header (t_nseq t) id ts))) /\
    t_chk t' mod 256 = sum (header (t_nseq t) id ts) mod 256 /\
    t_nseq t' = if rc_nseq c then u8 (t_nseq t + 1) else t_nseq t.
Proof.
  intros R. unfold trc_begin. set (t0 := mkTrc _ _ _). assert (R0 : st_rel (rc_st c) (t_stm t0) l) by exact R.
  destruct (em_width (rc_idw c) id Hid t0 l R0) as (t1 & E1 & R1 & C1 & S1). rewrite E1. cbn [bind].
  assert (Ew : em (fun t => trc_width c (rc_tsw c) t ts) (le (rc_tsw c) ts)).
  { destruct Hts as [->|H]; [apply em_nil|now apply em_width]. }
  unfold header. destruct (rc_nseq c).
  - destruct (em_u8 (t_nseq t1) t1 _ R1) as (t2 & E2 & R2 & C2 & S2). rewrite E2. cbn [bind].
    set (t3 := mkTrc _ _ _). assert (R3 : st_rel (rc_st c) (t_stm t3) (lastn SZ (lastn SZ (l ++ flat_map esc (le (rc_idw c) id)) ++
      flat_map esc [t_nseq t1 mod 256]))) by exact R2.
    destruct (Ew t3 _ R3) as (t4 & E4 & R4 & C4 & S4). rewrite E4. exists t4. split; [reflexivity|].
    rewrite S1 in *. cbn [t_nseq] in *. split; [|split].
    + rewrite !lastn_app1 in R4. rewrite <- app_assoc, lastn_app1 in R4.
      rewrite !flat_map_app. rewrite <- !app_assoc in *. exact R4.
    + rewrite C4. unfold t3. cbn [t_chk]. rewrite <- N.add_mod_idemp_l, C2 by discriminate.
      rewrite N.add_mod_idemp_l by discriminate. rewrite <- N.add_assoc, <- N.add_mod_idemp_l, C1 by discriminate.
      rewrite N.add_mod_idemp_l by discriminate. unfold t0. cbn [t_chk]. rewrite !sum_app. try (f_equal; lia); reflexivity.
    + rewrite S4. unfold t3. cbn [t_nseq]. now rewrite S2.
  - cbn [bind]. destruct (Ew t1 _ R1) as (t4 & E4 & R4 & C4 & S4). rewrite E4. exists t4. split; [reflexivity|].
    cbn [app]. split; [|split].
    + rewrite lastn_app1 in R4. rewrite flat_map_app. rewrite <- app_assoc in R4. exact R4.
    + rewrite C4, <- N.add_mod_idemp_l, C1 by discriminate.
      rewrite N.add_mod_idemp_l by discriminate. unfold t0. cbn [t_chk]. rewrite !sum_app. reflexivity.
    + rewrite S4, S1. reflexivity.
Qed.

Lemma chk_arith k x : k < 256 -> k mod 256 = x mod 256 -> (255 - k + 1) mod 256 = (256 - x mod 256) mod 256.
Proof.
  intros Hk Hx. rewrite N.mod_small in Hx by auto. rewrite <- Hx.
  replace (255 - k + 1) with (256 - k) by lia. reflexivity.
Qed.

(** The checksum variable always is a byte. *)
Definition chk_ok (t : trc) : Prop := t_chk t < 256.

Lemma trc_raw_chk t b t' : trc_raw c t b = Ok t' -> t_chk t' = t_chk t.
Proof. unfold trc_raw. intros H. apply bind_ok in H as (s & _ & H). inversion H. reflexivity. Qed.
Lemma trc_u8_chk t d t' : trc_u8 c t d = Ok t' -> chk_ok t'.
Proof.
  unfold trc_u8. set (t0 := mkTrc _ _ _). assert (H0 : chk_ok t0) by (unfold chk_ok, t0; cbn [t_chk]; apply u8_lt).
  unfold chk_ok in *. destruct (_ || _); intros H.
  - apply bind_ok in H as (t1 & E1 & H). apply trc_raw_chk in E1, H. congruence.
  - apply trc_raw_chk in H. congruence.
Qed.
Lemma trc_u16_chk t d t' : trc_u16 c t d = Ok t' -> chk_ok t'.
Proof. unfold trc_u16. intros H. apply bind_ok in H as (t1 & _ & H). now apply trc_u8_chk in H. Qed.
Lemma trc_u32_chk t d t' : trc_u32 c t d = Ok t' -> chk_ok t'.
Proof.
  unfold trc_u32. intros H. apply bind_ok in H as (t1 & _ & H). apply bind_ok in H as (t2 & _ & H).
  apply bind_ok in H as (t3 & _ & H). now apply trc_u8_chk in H.
Qed.
Lemma trc_width_chk w t d t' : chk_ok t -> trc_width c w t d = Ok t' -> chk_ok t'.
Proof.
  destruct w as [|[|[|w]]]; cbn [trc_width]; intros H0 H;
    [congruence|now apply trc_u8_chk in H|now apply trc_u16_chk in H|now apply trc_u32_chk in H].
Qed.
Lemma trc_str_chk m : forall t t', trc_str c t m = Ok t' -> chk_ok t'.
Proof.
  induction m as [|ch m IH]; intros t t' H; cbn [trc_str] in H; [discriminate|].
  destruct (ch =? 0); [now apply trc_u8_chk in H|]. apply bind_ok in H as (t1 & _ & H). eauto.
Qed.
Lemma trc_mem_chk n : forall m t t', chk_ok t -> trc_mem_loop c t m n = Ok t' -> chk_ok t'.
Proof.
  induction n as [|n IH]; intros m t t' H0 H; destruct m; cbn [trc_mem_loop] in H; try congruence.
  apply bind_ok in H as (t1 & E & H). apply trc_u8_chk in E. eauto.
Qed.
Lemma do_item_chk i t t' : chk_ok t -> do_item c t i = Ok t' -> chk_ok t'.
Proof.
  destruct i; cbn [do_item]; intros H0 H.
  - eapply trc_width_chk; eauto.
  - now apply trc_str_chk in H.
  - apply bind_ok in H as (t1 & _ & H). now apply trc_u8_chk in H.
  - apply bind_ok in H as (t1 & _ & H). now apply trc_u16_chk in H.
  - apply bind_ok in H as (t1 & _ & H). now apply trc_u32_chk in H.
  - apply bind_ok in H as (t1 & _ & H). now apply trc_str_chk in H.
  - apply bind_ok in H as (t1 & _ & H). apply bind_ok in H as (t2 & E & H). apply trc_u8_chk in E.
    eapply trc_mem_chk; eauto.
Qed.
Lemma do_items_chk l : forall t t', chk_ok t -> do_items c t l = Ok t' -> chk_ok t'.
Proof.
  induction l as [|i l IH]; intros t t' H0 H; cbn [do_items] in H; [congruence|].
  apply bind_ok in H as (t1 & E & H). apply do_item_chk in E; eauto.
Qed.
Lemma trc_begin_chk t id ts t' : trc_begin c t id ts = Ok t' -> chk_ok t'.
Proof.
  unfold trc_begin. intros H. apply bind_ok in H as (t1 & E1 & H). apply trc_width_chk in E1; [|unfold chk_ok; simpl; lia].
  apply bind_ok in H as (t2 & E2 & H). eapply trc_width_chk; [|exact H].
  destruct (rc_nseq c); [|congruence]. apply bind_ok in E2 as (t3 & E3 & E2). apply trc_u8_chk in E3.
  inversion E2; subst. exact E3.
Qed.

Lemma do_rec_rel t l r : rec_ok r -> st_rel (rc_st c) (t_stm t) l ->
  exists t', do_rec c t r = Ok t' /\
    st_rel (rc_st c) (t_stm t') (lastn SZ (l ++ flat_map esc (content (body (t_nseq t) r)) ++ [FLG])) /\
    t_nseq t' = if rc_nseq c then u8 (t_nseq t + 1) else t_nseq t.
Proof.
  intros Hr R. unfold do_rec. destruct (trc_begin_rel t l (r_id r) (r_ts r) R) as (t1 & E1 & R1 & C1 & S1).
  rewrite E1. cbn [bind]. destruct (em_items (r_items r) Hr t1 _ R1) as (t2 & E2 & R2 & C2 & S2).
  rewrite E2. cbn [bind]. rewrite lastn_app1, <- app_assoc, <- flat_map_app in R2. fold (body (t_nseq t) r) in R2.
  assert (C3 : t_chk t2 mod 256 = sum (body (t_nseq t) r) mod 256).
  { unfold body. rewrite C2, sum_app, <- N.add_mod_idemp_l, C1 by discriminate.
    now rewrite N.add_mod_idemp_l by discriminate. }
  assert (K : chk_ok t2) by (apply do_items_chk in E2; auto; eapply trc_begin_chk; eauto).
  unfold trc_end, content. destruct (rc_chk c).
  - set (t3 := mkTrc _ _ _). assert (R3 : st_rel (rc_st c) (t_stm t3) (lastn SZ (l ++ flat_map esc (body (t_nseq t) r)))) by exact R2.
    destruct (em_u8 (u8 (255 - t_chk t2 + 1)) t3 _ R3) as (t4 & E4 & R4 & C4 & S4). rewrite E4. cbn [bind].
    destruct (trc_raw_rel t4 _ FLG R4) as (t5 & E5 & R5 & C5 & S5). exists t5. split; [exact E5|].
    split.
    + rewrite !lastn_app1 in R5. rewrite <- app_assoc, lastn_app1 in R5. rewrite <- app_assoc in R5.
      rewrite flat_map_app. unfold chkbyte. rewrite <- (chk_arith (t_chk t2)); auto.
      unfold u8 in R5. rewrite N.mod_mod in R5 by discriminate. rewrite <- !app_assoc. exact R5.
    + rewrite S5, S4. unfold t3. cbn [t_nseq]. now rewrite S2, S1.
  - cbn [bind]. destruct (trc_raw_rel t2 _ FLG R2) as (t5 & E5 & R5 & C5 & S5). exists t5. split; [exact E5|].
    split; [rewrite lastn_app1, <- app_assoc in R5; exact R5|]. now rewrite S5, S2, S1.
Qed.

(** The frame contents written for the records from number [i] on. *)
Fixpoint contents (i : nat) (rs : list rec) : list (list N) :=
  match rs with
  | [] => []
  | r :: rs => flat_map esc (content (body (N.of_nat i mod 256) r)) :: contents (S i) rs
  end.

Lemma body_q q q' r : q mod 256 = q' mod 256 \/ rc_nseq c = false -> body q r = body q' r.
Proof. intros H. unfold body, header. destruct (rc_nseq c); [|reflexivity]. destruct H as [->|]; [reflexivity|discriminate]. Qed.

Lemma do_recs_rel rs : Forall rec_ok rs -> forall i t l,
  (t_nseq t = N.of_nat i mod 256 \/ rc_nseq c = false) -> st_rel (rc_st c) (t_stm t) l ->
  exists t', do_recs c t rs = Ok t' /\ st_rel (rc_st c) (t_stm t') (lastn SZ (l ++ stream_of (contents i rs))).
Proof.
  induction 1 as [|r rs Hr Hrs IH]; intros i t l Hq R.
  - exists t. split; [reflexivity|]. cbn [contents stream_of flat_map]. rewrite app_nil_r, lastn_all by apply R. exact R.
  - cbn [do_recs]. destruct (do_rec_rel t l r Hr R) as (t1 & E1 & R1 & S1). rewrite E1. cbn [bind].
    assert (Hq1 : t_nseq t1 = N.of_nat (S i) mod 256 \/ rc_nseq c = false).
    { destruct (rc_nseq c) eqn:En; [left|right; reflexivity]. rewrite S1. destruct Hq as [->|]; [|discriminate].
      unfold u8. rewrite N.add_mod_idemp_l by discriminate. f_equal. lia. }
    destruct (IH (S i) t1 _ Hq1 R1) as (t2 & E2 & R2).
    exists t2. split; [exact E2|]. rewrite lastn_app1, <- app_assoc in R2.
    cbn [contents stream_of flat_map]. fold (stream_of (contents (S i) rs)).
    rewrite (body_q (N.of_nat i mod 256) (t_nseq t)).
    + exact R2.
    + rewrite N.mod_mod by discriminate. destruct Hq as [->|]; auto. left. now rewrite N.mod_mod by discriminate.
Qed.

(** *** Reading back *)
Lemma sum_chk l : (sum (l ++ [chkbyte l])) mod 256 = 0.
Proof.
  rewrite sum_app. cbn [sum fold_right]. rewrite N.add_0_r. unfold chkbyte.
  pose proof (N.mod_lt (sum l) 256 ltac:(discriminate)) as Hm.
  rewrite N.add_mod_idemp_r by discriminate. rewrite <- N.add_mod_idemp_l by discriminate.
  replace (sum l mod 256 + (256 - sum l mod 256)) with 256 by lia. reflexivity.
Qed.

Lemma unchk_content l : unchk (rc_chk c) (content l) = Some l.
Proof.
  unfold unchk, content. destruct (rc_chk c); [|reflexivity]. rewrite sum_chk.
  rewrite app_length. cbn [length]. replace (1 <=? length l + 1)%nat with true by (symmetry; apply Nat.leb_le; lia).
  cbn [N.eqb andb]. now rewrite removelast_last.
Qed.

Lemma take_app w d l : take w (le w d ++ l) = Some (d mod 256 ^ N.of_nat w, l).
Proof.
  unfold take. rewrite app_length, le_len. replace (w <=? w + length l)%nat with true by (symmetry; apply Nat.leb_le; lia).
  rewrite firstn_app, skipn_app, le_len, Nat.sub_diag. cbn [firstn skipn]. rewrite app_nil_r.
  rewrite firstn_all2, skipn_all2 by (rewrite le_len; lia). now rewrite unle_le.
Qed.

Lemma parse_body i r : parse c (body (N.of_nat i) r) = sent c i r.
Proof.
  unfold parse, body, header, sent. rewrite <- app_assoc, take_app.
  destruct (rc_nseq c).
  - rewrite <- app_assoc. change [N.of_nat i mod 256] with (le 1 (N.of_nat i)).
    rewrite take_app. change (256 ^ N.of_nat 1) with 256. destruct (Nat.eqb_spec (rc_tsw c) 0) as [E|E].
    + rewrite E. reflexivity.
    + rewrite take_app. reflexivity.
  - cbn [app]. destruct (Nat.eqb_spec (rc_tsw c) 0) as [E|E].
    + rewrite E. reflexivity.
    + rewrite take_app. reflexivity.
Qed.

Lemma decode_contents rs : forall i, map (decode_frame c) (contents i rs) = sents c i rs.
Proof.
  induction rs as [|r rs IH]; intros i; [reflexivity|]. cbn [contents map sents]. rewrite IH. f_equal.
  unfold decode_frame. rewrite unescape_escs, unchk_content.
  rewrite (body_q _ (N.of_nat i)) by (left; now rewrite N.mod_mod by discriminate). apply parse_body.
Qed.

Lemma contents_flagfree rs : forall i, Forall flagfree (contents i rs).
Proof. induction rs; intros i; constructor; auto. apply escs_noflag. Qed.

Lemma contents_len rs : forall i, length (contents i rs) = length rs.
Proof. induction rs; intros; simpl; auto. Qed.

Lemma contents_skip rs : forall i j, skipn j (contents i rs) = contents (i + j) (skipn j rs).
Proof.
  induction rs as [|r rs IH]; intros i [|j]; cbn [contents skipn]; rewrite ?Nat.add_0_r; auto.
  rewrite IH. f_equal. lia.
Qed.

Lemma init_recs buf rs : length buf = SZ -> Forall rec_ok rs ->
  exists t0 t w, trc_init c buf = Ok t0 /\ do_recs c t0 rs = Ok t /\ readout c t = Ok w /\
    w = lastn SZ (stream_of ([] :: contents 0 rs)).
Proof.
  intros HL Hrs. destruct (st_init_rel (rc_st c) Hc buf HL) as (s0 & E0 & R0).
  unfold trc_init. rewrite E0. cbn [bind].
  destruct (do_recs_rel rs Hrs 0 (mkTrc s0 0 0) [FLG]) as (t & Et & Rt); [left; reflexivity|exact R0|].
  do 3 eexists. split; [reflexivity|]. split; [exact Et|]. unfold readout.
  destruct (st_whole_spec (rc_st c) Hc (t_stm t) _ (repeat 0 SZ) SZ Rt) as (s' & E' & _).
  - destruct Hc. lia.
  - rewrite repeat_length. lia.
  - rewrite E'. cbn [bind]. split; [reflexivity|]. rewrite Nat.min_r by apply Rt.
    rewrite firstn_all. rewrite firstn_app, Nat.sub_diag, firstn_all. cbn [firstn]. rewrite app_nil_r. reflexivity.
Qed.

Lemma fits_all buf rs : length buf = SZ -> Forall rec_ok rs ->
  exists t0 t w, trc_init c buf = Ok t0 /\ do_recs c t0 rs = Ok t /\ readout c t = Ok w /\
    exists j, decode c w = sents c j (skipn j rs) /\
      forall j', (j' <= length rs)%nat ->
        (1 + length (stream_of (contents j' (skipn j' rs))) <= SZ)%nat -> (j <= j')%nat.
Proof.
  intros HL Hrs. destruct (init_recs buf rs HL Hrs) as (t0 & t & w & E0 & Et & Ew & Hw).
  exists t0, t, w. repeat split; auto.
  assert (HF : Forall flagfree ([] :: contents 0 rs)) by (constructor; [constructor|apply contents_flagfree]).
  destruct (frames_suffix _ HF (length (stream_of ([] :: contents 0 rs)) - SZ)) as (j & Ej & H1 & Hmin).
  destruct j as [|j]; [exfalso; specialize (H1 ltac:(discriminate)); lia|]. exists j.
  unfold decode. rewrite Hw. unfold lastn. rewrite Ej. cbn [skipn]. rewrite contents_skip.
  split; [apply decode_contents|]. intros j' Hj' HS.
  assert (S j <= S j')%nat; [|lia]. apply Hmin.
  - cbn [length]. rewrite contents_len. lia.
  - cbn [skipn]. rewrite contents_skip. cbn [Nat.add]. fold (lastn SZ (stream_of ([] :: contents 0 rs))).
    assert (HT : (length (stream_of (contents j' (skipn j' rs))) + 1 <= length (stream_of ([] :: contents 0 rs)))%nat).
    { cbn [stream_of flat_map app length]. fold (stream_of (contents 0 rs)).
      rewrite <- (firstn_skipn j' (contents 0 rs)), contents_skip. cbn [Nat.add].
      unfold stream_of at 2. rewrite flat_map_app, app_length. fold (stream_of (contents j' (skipn j' rs))). lia. }
    lia.
Qed.

End Rec.

(** *** Sizes *)
Lemma escs_len l : length (flat_map esc l) = (length l + length (filter special l))%nat.
Proof.
  induction l as [|d l IH]; [reflexivity|]. cbn [flat_map filter length]. rewrite app_length, IH.
  unfold esc, special. change 0x7E with FLG. change 0x7D with ESC. destruct ((d =? FLG) || (d =? ESC)); cbn [length]; lia.
Qed.

Lemma body_data c i r : body c (N.of_nat i mod 256) r = rec_data c i r.
Proof.
  unfold body, header, rec_data. rewrite <- !app_assoc. rewrite N.mod_mod by discriminate. reflexivity.
Qed.
Lemma content_chk c l : content c l = with_chk c l.
Proof. reflexivity. Qed.

Lemma contents_cost c rs : forall i, length (stream_of (contents c i rs)) = costs c i rs.
Proof.
  induction rs as [|r rs IH]; intros i; [reflexivity|]. cbn [contents stream_of flat_map costs].
  rewrite !app_length, escs_len. fold (stream_of (contents c (S i) rs)). rewrite IH, body_data, content_chk.
  unfold cost. cbn [length]. lia.
Qed.

Lemma stream_app F G : stream_of (F ++ G) = stream_of F ++ stream_of G.
Proof. apply flat_map_app. Qed.

Lemma contents_app c rs1 rs2 : forall i, contents c i (rs1 ++ rs2) = contents c i rs1 ++ contents c (i + length rs1) rs2.
Proof.
  induction rs1 as [|r rs1 IH]; intros i; cbn [app contents length]; [now rewrite Nat.add_0_r|].
  f_equal. rewrite IH. f_equal. f_equal. lia.
Qed.

Lemma do_recs_nseq c rs : rc_cfg_ok c -> Forall rec_ok rs -> forall i t l,
  (t_nseq t = N.of_nat i mod 256 \/ rc_nseq c = false) -> st_rel (rc_st c) (t_stm t) l ->
  exists t', do_recs c t rs = Ok t' /\ st_rel (rc_st c) (t_stm t') (lastn (sz (rc_st c)) (l ++ stream_of (contents c i rs))) /\
    (t_nseq t' = N.of_nat (i + length rs) mod 256 \/ rc_nseq c = false).
Proof.
  intros (Hc & Hid & Hts). induction 1 as [|r rs Hr Hrs IH]; intros i t l Hq R.
  - exists t. split; [reflexivity|]. cbn [contents stream_of flat_map length]. rewrite Nat.add_0_r, app_nil_r, lastn_all by apply R. auto.
  - cbn [do_recs]. destruct (do_rec_rel c Hc Hid Hts t l r Hr R) as (t1 & E1 & R1 & S1). rewrite E1. cbn [bind].
    assert (Hq1 : t_nseq t1 = N.of_nat (S i) mod 256 \/ rc_nseq c = false).
    { destruct (rc_nseq c) eqn:En; [left|right; reflexivity]. rewrite S1. destruct Hq as [->|]; [|discriminate].
      unfold u8. rewrite N.add_mod_idemp_l by discriminate. f_equal. lia. }
    destruct (IH (S i) t1 _ Hq1 R1) as (t2 & E2 & R2 & Q2).
    exists t2. split; [exact E2|]. rewrite lastn_app1, <- app_assoc in R2.
    cbn [contents stream_of flat_map length]. fold (stream_of (contents c (S i) rs)).
    replace (i + S (length rs))%nat with (S i + length rs)%nat by lia. split; [|exact Q2].
    rewrite (body_q c (N.of_nat i mod 256) (t_nseq t)).
    + exact R2.
    + rewrite N.mod_mod by discriminate. destruct Hq as [->|]; auto. left. now rewrite N.mod_mod by discriminate.
Qed.

Lemma phases_spec c ph : rc_cfg_ok c -> Forall (fun p => Forall rec_ok (fst p)) ph -> forall i t l log,
  (t_nseq t = N.of_nat i mod 256 \/ rc_nseq c = false) -> st_rel (rc_st c) (t_stm t) l ->
  no_overrun c i (length l) ph ->
  exists t' log' l', phases c t log ph = Ok (t', log') /\ st_rel (rc_st c) (t_stm t') l' /\
    log' ++ l' = log ++ l ++ stream_of (contents c i (flat_map fst ph)) /\
    (t_nseq t' = N.of_nat (i + length (flat_map fst ph)) mod 256 \/ rc_nseq c = false).
Proof.
  intros Hc. induction 1 as [|[rs n] ph Hr Hph IH]; intros i t l log Hq R HN.
  - exists t, log, l. cbn [phases flat_map contents stream_of length]. rewrite app_nil_r, Nat.add_0_r. auto.
  - cbn [phases no_overrun fst flat_map] in *. destruct HN as (HN1 & HN2 & HN3).
    destruct (do_recs_nseq c rs Hc Hr i t l Hq R) as (t1 & E1 & R1 & Q1). rewrite E1. cbn [bind].
    assert (EL : length (l ++ stream_of (contents c i rs)) = (length l + costs c i rs)%nat)
      by (rewrite app_length, contents_cost; reflexivity).
    rewrite lastn_all in R1 by lia.
    destruct (st_whole_spec (rc_st c) (proj1 Hc) (t_stm t1) _ (repeat 0 n) n R1 HN2) as (s & E2 & R2);
      [rewrite repeat_length; lia|]. rewrite E2. cbn [bind].
    destruct (IH (i + length rs)%nat (mkTrc s (t_chk t1) (t_nseq t1)) _ 
      (log ++ firstn (Nat.min n (length (l ++ stream_of (contents c i rs))))
        (firstn (Nat.min n (length (l ++ stream_of (contents c i rs)))) (l ++ stream_of (contents c i rs)) ++
         skipn (Nat.min n (length (l ++ stream_of (contents c i rs)))) (repeat 0 n))) Q1 R2) as (t' & log' & l' & E3 & R3 & L3 & Q3).
    { rewrite skipn_length, EL. replace (length l + costs c i rs - Nat.min n (length l + costs c i rs))%nat
        with (length l + costs c i rs - n)%nat by lia. exact HN3. }
    exists t', log', l'. split; [exact E3|]. split; [exact R3|]. split.
    + rewrite L3. set (L := l ++ stream_of (contents c i rs)) in *. set (k := Nat.min n (length L)).
      rewrite contents_app, stream_app. rewrite <- !app_assoc. f_equal.
      rewrite firstn_app, firstn_firstn, Nat.min_id, firstn_length.
      replace (k - Nat.min k (length L))%nat with 0%nat by (unfold k; lia). cbn [firstn]. rewrite app_nil_r.
      rewrite (app_assoc (firstn k L)), firstn_skipn. unfold L. now rewrite <- app_assoc.
    + rewrite app_length. replace (i + (length rs + length (flat_map fst ph)))%nat with
        (i + length rs + length (flat_map fst ph))%nat by lia. exact Q3.
Qed.

Lemma readout_rel c t l : st_cfg_ok (rc_st c) -> st_rel (rc_st c) (t_stm t) l -> readout c t = Ok l.
Proof.
  intros Hc R. unfold readout.
  destruct (st_whole_spec (rc_st c) Hc (t_stm t) _ (repeat 0 (sz (rc_st c))) (sz (rc_st c)) R) as (s' & E' & _).
  - destruct Hc. lia.
  - rewrite repeat_length. lia.
  - rewrite E'. cbn [bind]. rewrite Nat.min_r by apply R.
    rewrite firstn_all. rewrite firstn_app, Nat.sub_diag, firstn_all. cbn [firstn]. now rewrite app_nil_r.
Qed.

Lemma trc_init_rel c buf : st_cfg_ok (rc_st c) -> length buf = sz (rc_st c) ->
  exists t0, trc_init c buf = Ok t0 /\ st_rel (rc_st c) (t_stm t0) [FLG] /\ t_nseq t0 = 0.
Proof.
  intros Hc HL. destruct (st_init_rel (rc_st c) Hc buf HL) as (s0 & E0 & R0).
  unfold trc_init. rewrite E0. cbn [bind]. eexists. split; [reflexivity|]. split; [exact R0|reflexivity].
Qed.

(** *** Final statements *)
Lemma round_trip c buf rs : rc_cfg_ok c -> length buf = sz (rc_st c) -> Forall rec_ok rs ->
  (1 + costs c 0 rs <= sz (rc_st c))%nat ->
  exists t0 t w, trc_init c buf = Ok t0 /\ do_recs c t0 rs = Ok t /\ readout c t = Ok w /\
    decode c w = sents c 0 rs.
Proof.
  intros (Hc & Hid & Hts) HL Hr HF.
  destruct (fits_all c Hc Hid Hts buf rs HL Hr) as (t0 & t & w & E0 & E1 & E2 & j & Ej & Hmin).
  exists t0, t, w. repeat split; auto. specialize (Hmin 0%nat ltac:(lia)). cbn [skipn] in Hmin.
  rewrite contents_cost in Hmin. specialize (Hmin HF). replace j with 0%nat in Ej by lia. exact Ej.
Qed.

Lemma overflow c buf rs : rc_cfg_ok c -> length buf = sz (rc_st c) -> Forall rec_ok rs ->
  exists t0 t w j, trc_init c buf = Ok t0 /\ do_recs c t0 rs = Ok t /\ readout c t = Ok w /\
    decode c w = sents c j (skipn j rs) /\
    forall j', (j' <= length rs)%nat -> (1 + costs c j' (skipn j' rs) <= sz (rc_st c))%nat -> (j <= j')%nat.
Proof.
  intros (Hc & Hid & Hts) HL Hr.
  destruct (fits_all c Hc Hid Hts buf rs HL Hr) as (t0 & t & w & E0 & E1 & E2 & j & Ej & Hmin).
  exists t0, t, w, j. repeat split; auto. intros j' Hj' HF. apply Hmin; auto. now rewrite contents_cost.
Qed.

Lemma in_turns c buf ph : rc_cfg_ok c -> length buf = sz (rc_st c) ->
  Forall (fun p => Forall rec_ok (fst p)) ph -> no_overrun c 0 1 ph ->
  exists t0 t log w, trc_init c buf = Ok t0 /\ phases c t0 [] ph = Ok (t, log) /\ readout c t = Ok w /\
    decode c (log ++ w) = sents c 0 (flat_map fst ph).
Proof.
  intros Hc HL Hr HN. destruct (trc_init_rel c buf (proj1 Hc) HL) as (t0 & E0 & R0 & Q0).
  destruct (phases_spec c ph Hc Hr 0 t0 [FLG] [] (or_introl Q0) R0 HN) as (t & log & w & E1 & R1 & L1 & _).
  exists t0, t, log, w. split; [exact E0|]. split; [exact E1|]. split; [apply readout_rel; auto; apply Hc|].
  rewrite L1. cbn [app]. change (FLG :: stream_of (contents c 0 (flat_map fst ph))) with
    (stream_of ([] :: contents c 0 (flat_map fst ph))).
  unfold decode. rewrite frames_stream; [|constructor; [constructor|apply contents_flagfree]].
  cbn [tl]. exact (decode_contents c (proj2 (proj2 Hc)) _ _).
Qed.

Lemma after_drain c buf ph rs : rc_cfg_ok c -> length buf = sz (rc_st c) ->
  Forall (fun p => Forall rec_ok (fst p)) ph -> no_overrun c 0 1 ph -> Forall rec_ok rs ->
  exists t0 t log t' w j, trc_init c buf = Ok t0 /\ phases c t0 [] ph = Ok (t, log) /\
    do_recs c t rs = Ok t' /\ readout c t' = Ok w /\
    decode c w = sents c j (skipn j (flat_map fst ph ++ rs)).
Proof.
  intros Hc HL Hr HN Hrs. destruct (trc_init_rel c buf (proj1 Hc) HL) as (t0 & E0 & R0 & Q0).
  destruct (phases_spec c ph Hc Hr 0 t0 [FLG] [] (or_introl Q0) R0 HN) as (t & log & w & E1 & R1 & L1 & Q1).
  destruct (do_recs_nseq c rs Hc Hrs _ t w Q1 R1) as (t' & E2 & R2 & _).
  pose proof (readout_rel c t' _ (proj1 Hc) R2) as E3.
  set (rr := flat_map fst ph) in *. cbn [Nat.add app] in *.
  assert (HFF : Forall flagfree ([] :: contents c 0 (rr ++ rs))) by (constructor; [constructor|apply contents_flagfree]).
  assert (EW : log ++ w ++ stream_of (contents c (length rr) rs) = stream_of ([] :: contents c 0 (rr ++ rs))).
  { rewrite app_assoc, L1, contents_app. cbn [Nat.add stream_of flat_map app]. fold (stream_of (contents c 0 rr ++ contents c (length rr) rs)).
    rewrite stream_app. reflexivity. }
  assert (ES : exists k, lastn (sz (rc_st c)) (w ++ stream_of (contents c (length rr) rs)) =
    skipn k (stream_of ([] :: contents c 0 (rr ++ rs)))).
  { rewrite <- EW. unfold lastn. set (y := w ++ _).
    assert (EY : skipn (length log) (log ++ y) = y) by (rewrite skipn_app, skipn_all, Nat.sub_diag; reflexivity).
    exists (length y - sz (rc_st c) + length log)%nat. rewrite <- skipn_skipn, EY. reflexivity. }
  destruct ES as (k & ES). destruct (frames_suffix _ HFF k) as (j & Ej & H1 & _).
  destruct j as [|j]; [specialize (H1 ltac:(discriminate)); lia|].
  rewrite ES in E3.
  do 6 eexists. split; [exact E0|]. split; [exact E1|]. split; [exact E2|]. split; [exact E3|].
  unfold decode. rewrite Ej. cbn [skipn]. rewrite contents_skip. exact (decode_contents c (proj2 (proj2 Hc)) _ _). apply Hc.
Qed.

Lemma cstr_bytes m : Forall byte m -> Forall byte (cstr m).
Proof.
  induction 1; cbn [cstr]; [constructor|]. destruct (x =? 0); repeat constructor; auto.
Qed.
Lemma item_bytes_ok i : item_ok i -> Forall byte (item_bytes i).
Proof.
  destruct i; cbn [item_ok item_bytes]; intros H.
  - apply le_bytes.
  - now apply cstr_bytes.
  - apply Forall_app; split; apply le_bytes.
  - apply Forall_app; split; apply le_bytes.
  - apply Forall_app; split; apply le_bytes.
  - constructor; [unfold byte; lia|]. now apply cstr_bytes.
  - destruct H as (Hm & Hn & _). constructor; [unfold byte; lia|]. constructor; [exact Hn|].
    rewrite <- (firstn_skipn (N.to_nat size) mem) in Hm. apply Forall_app in Hm. tauto.
Qed.
Lemma data_bytes c i r : rec_ok r -> Forall byte (with_chk c (rec_data c i r)).
Proof.
  intros Hr. assert (H : Forall byte (rec_data c i r)).
  { unfold rec_data. apply Forall_app; split; [apply le_bytes|]. apply Forall_app; split.
    - destruct (rc_nseq c); repeat constructor. unfold byte. apply N.mod_lt; discriminate.
    - apply Forall_app; split; [apply le_bytes|]. induction Hr; cbn [flat_map]; [constructor|].
      apply Forall_app; split; auto using item_bytes_ok. }
  unfold with_chk. destruct (rc_chk c); auto. apply Forall_app; split; auto. repeat constructor.
  unfold byte. apply N.mod_lt; discriminate.
Qed.

Lemma sum_upd l : forall i b v, nth_error l i = Some b -> sum (upd l i v) + b = sum l + v.
Proof.
  induction l as [|a l IH]; intros [|i] b v H; try discriminate; cbn [nth_error] in H.
  - inversion H; subst. cbn [upd sum fold_right]. lia.
  - cbn [upd]. change (sum (a :: upd l i v)) with (a + sum (upd l i v)). change (sum (a :: l)) with (a + sum l).
    specialize (IH _ _ v H). lia.
Qed.

Lemma single_change l i b v : Forall byte l -> nth_error l i = Some b -> byte v -> v <> b ->
  sum l mod 256 = 0 -> sum (upd l i v) mod 256 <> 0.
Proof.
  intros Hl Hi Hv Hne H0 H1. assert (Hb : byte b) by (eapply Forall_forall; eauto using nth_error_In).
  unfold byte in *. pose proof (sum_upd l i b v Hi) as HS.
  apply N.mod_divide in H0; [|discriminate]. apply N.mod_divide in H1; [|discriminate].
  destruct H0 as [x Hx], H1 as [y Hy]. lia.
Qed.

(** Every complete frame read back carries a closing checksum. *)
Lemma checksum c buf rs : rc_cfg_ok c -> rc_chk c = true -> length buf = sz (rc_st c) -> Forall rec_ok rs ->
  exists t0 t w, trc_init c buf = Ok t0 /\ do_recs c t0 rs = Ok t /\ readout c t = Ok w /\
    forall f, In f (tl (frames w)) -> exists l, unescape f = Some l /\ sum l mod 256 = 0 /\
      forall i b v, nth_error l i = Some b -> byte v -> v <> b -> sum (upd l i v) mod 256 <> 0.
Proof.
  intros (Hc & Hid & Hts) HK HL Hr. destruct (init_recs c Hc Hid Hts buf rs HL Hr) as (t0 & t & w & E0 & E1 & E2 & Hw).
  exists t0, t, w. repeat split; auto. intros f Hf. rewrite Hw in Hf. unfold lastn in Hf.
  assert (HF : Forall flagfree ([] :: contents c 0 rs)) by (constructor; [constructor|apply contents_flagfree]).
  destruct (frames_suffix _ HF (length (stream_of ([] :: contents c 0 rs)) - sz (rc_st c))) as (j & Ej & H1 & _).
  rewrite Ej in Hf. destruct j as [|j]; [specialize (H1 ltac:(discriminate)); lia|]. cbn [skipn] in Hf.
  assert (Hin : In f (contents c 0 rs)) by (rewrite <- (firstn_skipn j); apply in_or_app; auto).
  assert (HC : exists i r, rec_ok r /\ f = flat_map esc (with_chk c (rec_data c i r))).
  { clear - Hin Hr. revert Hin. generalize 0%nat. induction Hr as [|r rs Hr Hrs IH]; intros i; cbn [contents]; [easy|].
    intros [<-|H]; [exists i, r; rewrite body_data, content_chk; auto|eauto]. }
  destruct HC as (i & r & Hrr & ->). exists (with_chk c (rec_data c i r)).
  split; [apply unescape_escs|].
  assert (HS : sum (with_chk c (rec_data c i r)) mod 256 = 0) by (unfold with_chk; rewrite HK; eapply (sum_chk c); auto).
  split; [exact HS|]. intros. eapply single_change; eauto using data_bytes.
Qed.

Lemma sents_nth c rs : forall i k r, nth_error rs k = Some r -> nth_error (sents c i rs) k = Some (sent c (i + k) r).
Proof.
  induction rs as [|r0 rs IH]; intros i [|k] r H; try discriminate; cbn [nth_error sents] in *.
  - inversion H; subst. now rewrite Nat.add_0_r.
  - rewrite (IH (S i) _ _ H). do 2 f_equal. lia.
Qed.
Lemma sents_len c rs : forall i, length (sents c i rs) = length rs.
Proof. induction rs; intros; simpl; auto. Qed.

Lemma single_rejected l i b v :
  Forall byte l -> unchk true l <> None -> nth_error l i = Some b -> byte v -> v <> b ->
  unchk true (upd l i v) = None.
Proof.
  intros Hl HU Hi Hv Hne. unfold unchk in *.
  destruct (sum l mod 256 =? 0) eqn:E0; cbn [andb] in HU; [|congruence]. apply N.eqb_eq in E0.
  pose proof (single_change l i b v Hl Hi Hv Hne E0) as H. apply N.eqb_neq in H. now rewrite H.
Qed.

Lemma nth_skipn {A} (l : list A) : forall j k, nth_error (skipn j l) k = nth_error l (j + k).
Proof. induction l; intros [|j] k; simpl; auto. destruct k; reflexivity. Qed.

Lemma sequence c buf rs : rc_cfg_ok c -> rc_nseq c = true -> length buf = sz (rc_st c) -> Forall rec_ok rs ->
  exists t0 t w lost, trc_init c buf = Ok t0 /\ do_recs c t0 rs = Ok t /\ readout c t = Ok w /\
    (length (decode c w) = length rs - lost)%nat /\
    forall k x, nth_error (decode c w) k = Some x ->
      exists p r, x = Some p /\ nth_error rs (lost + k) = Some r /\
        p_seq p = Some (N.of_nat (lost + k) mod 256) /\ p_pay p = flat_map item_bytes (r_items r).
Proof.
  intros Hc HQ HL Hr. destruct (overflow c buf rs Hc HL Hr) as (t0 & t & w & j & E0 & E1 & E2 & E3 & _).
  exists t0, t, w, j. repeat split; auto.
  - rewrite E3, sents_len, skipn_length. reflexivity.
  - intros k x Hk. rewrite E3 in Hk. destruct (nth_error (skipn j rs) k) as [r|] eqn:Er.
    + rewrite (sents_nth c _ _ _ _ Er) in Hk. inversion Hk; subst x. unfold sent. rewrite HQ.
      do 2 eexists. split; [reflexivity|]. rewrite nth_skipn in Er. split; [exact Er|]. auto.
    + apply nth_error_None in Er. rewrite <- (sents_len c (skipn j rs) j) in Er.
      apply nth_error_None in Er. congruence.
Qed.

Lemma across_reads c buf ph rs :
  rc_cfg_ok c -> rc_nseq c = true -> length buf = sz (rc_st c) ->
  Forall (fun p => Forall rec_ok (fst p)) ph -> no_overrun c 0 1 ph -> Forall rec_ok rs ->
  exists t0 t log t' w j, trc_init c buf = Ok t0 /\ phases c t0 [] ph = Ok (t, log) /\
    do_recs c t rs = Ok t' /\ readout c t' = Ok w /\
    decode c w = sents c j (skipn j (flat_map fst ph ++ rs)) /\
    forall n k x p, N.of_nat n < 256 -> (0 < n)%nat ->
      (j = S k + n)%nat -> hd_error (decode c w) = Some x -> x = Some p ->
      exists q, p_seq p = Some q /\ q <> (N.of_nat k + 1) mod 256.
Proof.
  intros Hc HQ HL Hph HN Hr.
  destruct (after_drain c buf ph rs Hc HL Hph HN Hr) as (t0 & t & log & t' & w & j & E0 & E1 & E2 & E3 & E4).
  exists t0, t, log, t', w, j. repeat split; auto. intros n k x p Hn Hp Hj Hx Ex. rewrite E4 in Hx.
  destruct (skipn j _) as [|r l]; [discriminate|]. cbn [sents hd_error] in Hx. subst x. unfold sent in Hx.
  rewrite HQ in Hx. inversion Hx; subst p. cbn [p_seq]. eexists. split; [reflexivity|]. subst j.
  replace (N.of_nat (S k + n)) with (N.of_nat k + 1 + N.of_nat n) by lia. intros H.
  set (a := N.of_nat k + 1) in *. set (m := N.of_nat n) in *.
  assert (Hm : 0 < m < 256) by (unfold m; lia).
  rewrite <- N.add_mod_idemp_l in H by discriminate. set (y := a mod 256) in *.
  assert (Hy : y < 256) by (apply N.mod_lt; discriminate).
  destruct (N.lt_ge_cases (y + m) 256) as [H1|H1].
  - rewrite N.mod_small in H by auto. lia.
  - assert (E : (y + m) mod 256 = y + m - 256).
    { symmetry. apply (N.mod_unique _ _ 1); lia. }
    lia.
Qed.

Lemma field_bytes c buf id ts i :
  rc_cfg_ok c -> length buf = sz (rc_st c) -> item_ok i ->
  (1 + costs c 0 [mkRec id ts [i]] <= sz (rc_st c))%nat ->
  exists t0 t1 t2 t w p, trc_init c buf = Ok t0 /\ trc_begin c t0 id ts = Ok t1 /\
    do_item c t1 i = Ok t2 /\ trc_end c t2 = Ok t /\ readout c t = Ok w /\
    decode c w = [Some p] /\ p_pay p = item_bytes i /\
    p_id p = id mod 256 ^ N.of_nat (rc_idw c).
Proof.
  intros Hc HL Hi HF.
  destruct (round_trip c buf [mkRec id ts [i]] Hc HL) as (t0 & t & w & E0 & E1 & E2 & E3); auto.
  { repeat constructor. exact Hi. }
  cbn [do_recs do_rec do_items r_id r_ts r_items] in E1. unfold do_rec in E1. cbn [r_id r_ts r_items do_items] in E1.
  apply bind_ok in E1 as (tx & E1 & Ex). inversion Ex; subst tx.
  apply bind_ok in E1 as (t1 & Eb & E1). apply bind_ok in E1 as (t2 & Ei & E1).
  apply bind_ok in Ei as (t3 & Ei & E4). inversion E4; subst t3.
  exists t0, t1, t2, t, w. eexists. do 5 (split; [eassumption|]). split; [exact E3|].
  split; [apply app_nil_r|reflexivity].
Qed.

Lemma symbol_records c t id ts a b nm :
  trc_obj c t id ts a nm = do_rec c t (mkRec id ts [IWidth (rc_ptrw c) a; IStr nm]) /\
  trc_sig c t id ts b nm = do_rec c t (mkRec id ts [IWidth (rc_sigw c) b; IStr nm]) /\
  trc_state c t id ts a b nm = do_rec c t (mkRec id ts [IWidth (rc_ptrw c) a; IWidth (rc_ptrw c) b; IStr nm]).
Proof.
  unfold trc_obj, trc_sig, trc_state, do_rec. cbn [r_id r_ts r_items do_items do_item].
  repeat split; destruct (trc_begin c t id ts) as [t1|]; cbn [bind]; auto;
    (destruct (trc_width c _ t1 _) as [t2|]; cbn [bind]; auto).
  - destruct (trc_str c t2 nm); reflexivity.
  - destruct (trc_str c t2 nm); reflexivity.
  - destruct (trc_width c _ t2 _) as [t3|]; cbn [bind]; auto. destruct (trc_str c t3 nm); reflexivity.
Qed.

(** *** Default records *)
Lemma do_item_dft c t i : do_item (dft_cfg c) t i = do_item c t i.
Proof. destruct i; reflexivity. Qed.
Lemma do_items_dft c l : forall t, do_items (dft_cfg c) t l = do_items c t l.
Proof.
  induction l as [|i l IH]; intros t; cbn [do_items]; [reflexivity|]. rewrite do_item_dft.
  destruct (do_item c t i); cbn [bind]; [apply IH|reflexivity].
Qed.
Lemma do_dft_rec c t id items : do_dft c t id items = do_rec (dft_cfg c) t (mkRec id 0 items).
Proof.
  unfold do_dft, do_rec, trc_begin_dft, trc_begin, trc_clear_chk. cbn [r_id r_ts r_items].
  change (rc_nseq (dft_cfg c)) with false. change (rc_tsw (dft_cfg c)) with 0%nat.
  change (rc_idw (dft_cfg c)) with (rc_idw c).
  change (trc_width (dft_cfg c) (rc_idw c)) with (trc_width c (rc_idw c)).
  destruct (trc_width c (rc_idw c) _ id) as [t1|f]; cbn [bind]; [|reflexivity].
  cbn [trc_width bind]. rewrite do_items_dft. destruct (do_items c t1 items); reflexivity.
Qed.

Lemma default_record c buf rs1 id items rs2 :
  rc_cfg_ok c -> length buf = sz (rc_st c) -> Forall rec_ok rs1 -> Forall item_ok items -> Forall rec_ok rs2 ->
  (1 + costs c 0 rs1 + cost (dft_cfg c) 0 (mkRec id 0 items) + costs c (length rs1) rs2 <= sz (rc_st c))%nat ->
  exists t0 t1 t2 t w F1 f F2, trc_init c buf = Ok t0 /\ do_recs c t0 rs1 = Ok t1 /\
    do_dft c t1 id items = Ok t2 /\ do_recs c t2 rs2 = Ok t /\ readout c t = Ok w /\
    tl (frames w) = F1 ++ f :: F2 /\
    map (decode_frame c) F1 = sents c 0 rs1 /\
    decode_frame (dft_cfg c) f =
      Some (mkPrec (id mod 256 ^ N.of_nat (rc_idw c)) None None (flat_map item_bytes items)) /\
    map (decode_frame c) F2 = sents c (length rs1) rs2.
Proof.
  intros Hc HL H1 Hi H2 HF. pose proof Hc as (Hst & Hid & Hts).
  destruct (trc_init_rel c buf Hst HL) as (t0 & E0 & R0 & Q0).
  destruct (do_recs_nseq c rs1 Hc H1 0 t0 _ ltac:(left; exact Q0) R0) as (t1 & E1 & R1 & Q1).
  assert (Hd : rc_cfg_ok (dft_cfg c)) by (split; [exact Hst|split; [exact Hid|left; reflexivity]]).
  set (r := mkRec id 0 items) in *.
  destruct (do_rec_rel (dft_cfg c) Hst Hid (or_introl eq_refl) t1 _ r Hi R1) as (t2 & E2 & R2 & Q2).
  assert (Q2' : t_nseq t2 = N.of_nat (length rs1) mod 256 \/ rc_nseq c = false).
  { change (rc_nseq (dft_cfg c)) with false in Q2. rewrite Q2. exact Q1. }
  destruct (do_recs_nseq c rs2 Hc H2 (length rs1) t2 _ Q2' R2) as (t & E3 & R3 & _).
  set (f := flat_map esc (content (dft_cfg c) (body (dft_cfg c) (t_nseq t1) r))) in *.
  assert (ES : [FLG] ++ stream_of (contents c 0 rs1) ++ (f ++ [FLG]) ++ stream_of (contents c (length rs1) rs2)
     = stream_of ([] :: contents c 0 rs1 ++ f :: contents c (length rs1) rs2)).
  { change ([] :: contents c 0 rs1 ++ f :: contents c (length rs1) rs2) with
      ([[]] ++ contents c 0 rs1 ++ [f] ++ contents c (length rs1) rs2). rewrite !stream_app.
    unfold stream_of at 4 5. cbn [flat_map]. rewrite !app_nil_r. reflexivity. }
  assert (EL : length (stream_of ([] :: contents c 0 rs1 ++ f :: contents c (length rs1) rs2)) =
    (1 + costs c 0 rs1 + cost (dft_cfg c) 0 r + costs c (length rs1) rs2)%nat).
  { rewrite <- ES, !app_length, !contents_cost. unfold f. rewrite escs_len.
    rewrite (body_q (dft_cfg c) (t_nseq t1) (N.of_nat 0 mod 256)) by (right; reflexivity).
    rewrite body_data, content_chk. unfold cost. cbn [length]. lia. }
  change (sz (rc_st (dft_cfg c))) with (sz (rc_st c)) in R2, R3.
  rewrite !lastn_app1 in R3. rewrite <- !app_assoc in R3.
  rewrite !lastn_app1 in R3. rewrite <- !app_assoc in R3.
  assert (ES' : [FLG] ++ stream_of (contents c 0 rs1) ++ f ++ [FLG] ++ stream_of (contents c (length rs1) rs2)
     = stream_of ([] :: contents c 0 rs1 ++ f :: contents c (length rs1) rs2)).
  { rewrite <- ES. rewrite <- !app_assoc. reflexivity. }
  rewrite ES' in R3. rewrite lastn_all in R3 by lia.
  exists t0, t1, t2, t, (stream_of ([] :: contents c 0 rs1 ++ f :: contents c (length rs1) rs2)),
    (contents c 0 rs1), f, (contents c (length rs1) rs2).
  split; [exact E0|]. split; [exact E1|]. split; [rewrite do_dft_rec; exact E2|]. split; [exact E3|].
  split; [now apply readout_rel|]. split; [|split; [apply decode_contents; exact Hts|split; [|apply decode_contents; exact Hts]]].
  - rewrite frames_stream; [reflexivity|]. constructor; [constructor|]. apply Forall_app. split; [apply contents_flagfree|].
    constructor; [apply escs_noflag|apply contents_flagfree].
  - unfold decode_frame. replace (unescape f) with (Some (content (dft_cfg c) (body (dft_cfg c) (t_nseq t1) r))) by (symmetry; apply unescape_escs). cbv iota beta. rewrite (unchk_content (dft_cfg c)).
    rewrite (body_q (dft_cfg c) (t_nseq t1) (N.of_nat 0)) by (right; reflexivity).
    rewrite parse_body; [reflexivity|left; reflexivity]. all: try (left; reflexivity); try exact Hts.
Qed.
