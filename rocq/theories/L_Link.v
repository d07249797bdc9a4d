(** Proofs: from the records to the line. *)
From Verif Require Import Base L_Base M_TrcStream S_TrcStream L_TrcStream M_TrcRecord S_TrcRecord L_TrcRecord M_Flush S_Flush L_Flush M_Link S_Link.
Local Open Scope N_scope.

Section Puts.
Context (c : stcfg).
Fixpoint putl (s : stm) (l : list N) : res stm := match l with [] => Ok s | b :: l => do s <- st_put c s b; putl s l end.
Lemma putl_app l1 : forall s l2, putl s (l1 ++ l2) = do s <- putl s l1; putl s l2.
Proof. induction l1 as [|b l1 IH]; intros s l2; [reflexivity|]. cbn [app putl]. destruct (st_put c s b); cbn [bind]; [apply IH | reflexivity]. Qed.
End Puts.

Section Writes.
Context (c : rccfg).
Definition addc (ds : list N) (k : N) : N := fold_left (fun k d => u8 (k + d)) ds k.
(** [f] puts the bytes [ds], escaped, and adds them up. *)
Definition em (f : trc -> res trc) (ds : list N) : Prop :=
  forall t, f t = do s <- putl (rc_st c) (t_stm t) (flat_map esc ds); Ok (mkTrc s (addc ds (t_chk t)) (t_nseq t)).
Lemma em_nil : em (fun t => Ok t) [].
Proof. intros [s k q]. reflexivity. Qed.
Lemma em_bind f g d1 d2 : em f d1 -> em g d2 -> em (fun t => do t <- f t; g t) (d1 ++ d2).
Proof.
  intros Hf Hg t. rewrite Hf, flat_map_app, putl_app. unfold addc. rewrite fold_left_app.
  destruct (putl _ (t_stm t) _); cbn [bind]; [|reflexivity]. rewrite Hg. reflexivity.
Qed.
Lemma em_u8 d : em (fun t => trc_u8 c t d) [d mod 256].
Proof.
  intros t. unfold trc_u8. change (u8 d) with (d mod 256). cbn [flat_map]. rewrite app_nil_r. unfold esc, addc. cbn [fold_left].
  destruct (_ || _)%bool; unfold trc_raw; cbn [t_stm t_chk t_nseq putl].
  - destruct (st_put _ (t_stm t) _); cbn [bind]; [|reflexivity]. cbn [t_stm t_chk t_nseq]. destruct (st_put _ _ _); reflexivity.
  - destruct (st_put _ (t_stm t) _); reflexivity.
Qed.
Lemma em_eq f ds ds' : ds = ds' -> em f ds -> em f ds'.
Proof. intros ->; auto. Qed.
Lemma em_u16 d : em (fun t => trc_u16 c t d) (le 2 d).
Proof.
  unfold trc_u16. eapply em_eq; [|apply em_bind; apply em_u8]. unfold u16.
  rewrite <- (le_mod 2 d). change (256 ^ N.of_nat 2) with 65536. rewrite N.shiftr_div_pow2. reflexivity.
Qed.
Lemma em_u32 d : em (fun t => trc_u32 c t d) (le 4 d).
Proof.
  unfold trc_u32. eapply em_eq; [|apply em_bind; [apply em_u8|apply em_bind; [apply em_u8|apply em_bind; apply em_u8]]].
  unfold u32. rewrite <- (le_mod 4 d). change (256 ^ N.of_nat 4) with 4294967296.
  rewrite !N.shiftr_div_pow2. reflexivity.
Qed.
Lemma em_width w d : width_ok w -> em (fun t => trc_width c w t d) (le w d).
Proof. intros [->|[->| ->]]; cbn [trc_width]; [apply em_u8|apply em_u16|apply em_u32]. Qed.
Lemma em_str m : Forall byte m -> In 0 m -> em (fun t => trc_str c t m) (cstr m).
Proof.
  induction 1 as [|ch m Hb Hm IH]; intros H0; [easy|]. cbn [trc_str cstr].
  destruct (N.eqb_spec ch 0) as [->|Hne]; [apply em_u8|].
  destruct H0 as [|H0]; [congruence|]. change (ch :: cstr m) with ([ch] ++ cstr m).
  apply em_bind; auto. eapply em_eq; [|apply em_u8]. now rewrite N.mod_small by auto.
Qed.
Lemma em_mem n : forall m, Forall byte m -> (n <= length m)%nat -> em (fun t => trc_mem_loop c t m n) (firstn n m).
Proof.
  induction n as [|n IH]; intros m Hm Hl; [destruct m; apply em_nil|]. destruct m as [|b m]; [simpl in Hl; lia|].
  inversion Hm; subst. cbn [trc_mem_loop firstn]. change (b :: firstn n m) with ([b] ++ firstn n m).
  apply em_bind; [|apply IH; auto; simpl in Hl; lia].
  eapply em_eq; [|apply em_u8]. now rewrite N.mod_small by auto.
Qed.
Lemma em_item i : item_ok i -> em (fun t => do_item c t i) (item_bytes i).
Proof.
  destruct i as [w d|m|f d|f d|f d|m|m n]; cbn [item_ok do_item item_bytes].
  - apply em_width.
  - intros []. now apply em_str.
  - intros _. apply em_bind; apply em_u8.
  - intros _. apply em_bind; [apply em_u8|apply em_u16].
  - intros _. apply em_bind; [apply em_u8|apply em_u32].
  - intros []. change (7 :: cstr m) with ([7 mod 256] ++ cstr m). apply em_bind; [apply em_u8|now apply em_str].
  - intros (Hm & Hn & Hl). unfold trc_fmt_mem. rewrite (u8_small n Hn).
    change (8 :: n :: firstn (N.to_nat n) m) with ([8 mod 256] ++ [n] ++ firstn (N.to_nat n) m).
    apply em_bind; [apply em_u8|]. apply em_bind; [|now apply em_mem].
    eapply em_eq; [|apply em_u8]. now rewrite N.mod_small.
Qed.
Lemma em_items l : Forall item_ok l -> em (fun t => do_items c t l) (flat_map item_bytes l).
Proof.
  induction 1; cbn [do_items flat_map]; [apply em_nil|]. apply em_bind; [now apply em_item|auto].
Qed.
Lemma addc_sum ds : forall k, k < 256 -> addc ds k < 256 /\ addc ds k = (k + sum ds) mod 256.
Proof.
  unfold addc. induction ds as [|d ds IH]; intros k Hk; cbn [fold_left sum fold_right].
  - rewrite N.add_0_r, N.mod_small by auto. auto.
  - destruct (IH (u8 (k + d))) as [H1 H2]; [apply u8_lt|]. split; [exact H1|]. rewrite H2. unfold u8, sum.
    rewrite N.add_mod_idemp_l by discriminate. f_equal. lia.
Qed.
Hypothesis Hid : width_ok (rc_idw c).
Hypothesis Hts : rc_tsw c = 0%nat \/ width_ok (rc_tsw c).
Definition nextq (q : N) : N := if rc_nseq c then u8 (q + 1) else q.
Lemma do_rec_puts t r : rec_ok r -> exists k, do_rec c t r =
  do s <- putl (rc_st c) (t_stm t) (flat_map esc (content c (body c (t_nseq t) r)) ++ [FLG]); Ok (mkTrc s k (nextq (t_nseq t))).
Proof.
  intros Hr.
  assert (Eh : forall q, exists f, (forall s, trc_begin c (mkTrc s (t_chk t) q) (r_id r) (r_ts r) = do s <- putl (rc_st c) s (flat_map esc (header c q (r_id r) (r_ts r))); Ok (f s))
      /\ forall s, f s = mkTrc s (addc (header c q (r_id r) (r_ts r)) 0) (nextq q)).
  { intros q. exists (fun s => mkTrc s (addc (header c q (r_id r) (r_ts r)) 0) (nextq q)). split; [|reflexivity]. intros s.
    unfold trc_begin. cbn [t_stm t_nseq]. rewrite (em_width (rc_idw c) (r_id r) Hid). cbn [t_stm t_chk t_nseq].
    assert (Ew : em (fun t => trc_width c (rc_tsw c) t (r_ts r)) (le (rc_tsw c) (r_ts r))).
    { destruct Hts as [->|H]; [apply em_nil|now apply em_width]. }
    unfold header, addc. rewrite !fold_left_app, !flat_map_app, !putl_app.
    destruct (putl _ s _) as [s1|]; cbn [bind]; [|reflexivity]. unfold nextq. destruct (rc_nseq c).
    - cbn [t_nseq]. rewrite (em_u8 q), putl_app. cbn [t_stm t_chk t_nseq]. destruct (putl _ s1 _) as [s2|]; cbn [bind]; [|reflexivity]. rewrite Ew. reflexivity.
    - cbn [bind flat_map putl]. rewrite Ew. reflexivity. }
  destruct (Eh (t_nseq t)) as (f & E1 & Ef). specialize (E1 (t_stm t)).
  replace (mkTrc (t_stm t) (t_chk t) (t_nseq t)) with t in E1 by (destruct t; reflexivity).
  set (h := header c (t_nseq t) (r_id r) (r_ts r)) in *. set (b := flat_map item_bytes (r_items r)).
  set (k := addc b (addc h 0)).
  assert (Hk : k = sum (body c (t_nseq t) r) mod 256).
  { unfold k, body. fold h b. destruct (addc_sum h 0 ltac:(reflexivity)) as [A1 A2]. destruct (addc_sum b _ A1) as [_ A4]. rewrite A4, A2, sum_app.
    cbn [N.add]. rewrite N.add_mod_idemp_l by discriminate. reflexivity. }
  assert (Hk2 : k < 256) by (rewrite Hk; apply N.mod_lt; discriminate).
  exists (if rc_chk c then u8 (u8 (255 - k + 1) + u8 (255 - k + 1) mod 256) else k).
  unfold do_rec. rewrite E1. unfold content, body. fold h b. change (h ++ b) with (body c (t_nseq t) r).
  destruct (rc_chk c) eqn:Ec.
  - rewrite flat_map_app. unfold body at 1. fold h b. rewrite flat_map_app, <- !app_assoc, !putl_app.
    destruct (putl _ (t_stm t) _) as [s1|]; cbn [bind]; [|reflexivity]. rewrite Ef, (em_items _ Hr). cbn [t_stm t_chk t_nseq]. fold b k.
    rewrite putl_app. destruct (putl _ s1 _) as [s2|]; cbn [bind]; [|reflexivity]. unfold trc_end. rewrite Ec. cbn [t_stm t_chk t_nseq].
    rewrite (em_u8 (u8 (255 - k + 1))). cbn [t_stm t_chk t_nseq].
    assert (Hb : u8 (255 - k + 1) mod 256 = chkbyte (body c (t_nseq t) r)).
    { unfold u8. rewrite N.mod_mod by discriminate. unfold chkbyte. apply (chk_arith c Hts k); [exact Hk2|]. rewrite Hk. apply N.mod_mod. discriminate. }
    rewrite Hb, putl_app. destruct (putl _ s2 _) as [s3|]; cbn [bind]; [|reflexivity]. unfold trc_raw. cbn [t_stm t_chk t_nseq putl].
    destruct (st_put _ s3 _); cbn [bind]; [|reflexivity]. unfold addc. cbn [fold_left]. rewrite <- Hb. reflexivity.
  - unfold body. fold h b. rewrite flat_map_app, <- !app_assoc, !putl_app.
    destruct (putl _ (t_stm t) _) as [s1|]; cbn [bind]; [|reflexivity]. rewrite Ef, (em_items _ Hr). cbn [t_stm t_chk t_nseq]. fold b k.
    rewrite putl_app. destruct (putl _ s1 _) as [s2|]; cbn [bind]; [|reflexivity]. unfold trc_end. rewrite Ec. cbn [t_stm t_chk t_nseq bind]. unfold trc_raw. cbn [t_stm t_chk t_nseq putl].
    destruct (st_put _ s2 _); reflexivity.
Qed.
End Writes.

(** * Records as sequences of puts *)
Section Link.
Context (c : rccfg) (Hc : rc_cfg_ok c) (rdr : reader) (Hr : reader_ok (rc_st c) rdr).
Local Open Scope nat_scope.
Definition rbytes (i : nat) (r : rec) : list N := flat_map esc (content c (body c (N.of_nat i mod 256) r)) ++ [FLG].
Fixpoint expand (i : nat) (xs : list kout) : list fout :=
  match xs with
  | [] => []
  | KORec r :: xs => map OPut (rbytes i r) ++ expand (S i) xs
  | KOStep x :: xs => x :: expand i xs
  end.
Lemma rbytes_len i r : length (rbytes i r) = cost c i r.
Proof. unfold rbytes. rewrite app_length, escs_len, body_data, content_chk. unfold cost. cbn [length]. lia. Qed.
Lemma expand_sent xs : forall i, bytes_sent (expand i xs) = line_of xs.
Proof.
  unfold bytes_sent, line_of. induction xs as [|x xs IH]; intros i; [reflexivity|]. destruct x as [r | x]; cbn [expand flat_map app].
  - rewrite flat_map_app, IH. generalize (rbytes i r). intros l. induction l; [reflexivity | exact IHl].
  - rewrite IH. destruct x; reflexivity.
Qed.
Lemma map_put l : flat_map put_of (map OPut l) = l.
Proof. induction l; cbn; [reflexivity | f_equal; exact IHl]. Qed.
Definition steps_only (xs : list kout) : Prop := Forall (fun x => match x with KOStep (OPut _) => False | _ => True end) xs.
Lemma expand_put xs : steps_only xs -> forall i, bytes_put (expand i xs) = stream_of (contents c i (recs_of xs)).
Proof.
  unfold bytes_put, recs_of. induction 1 as [|x xs Hx _ IH]; intros i; [reflexivity|]. destruct x as [r | x]; cbn [expand flat_map app contents].
  - rewrite flat_map_app, IH, map_put. reflexivity.
  - rewrite IH. destruct x; [destruct Hx | reflexivity..].
Qed.
Lemma fits_puts n l : forall m xs, m + length l <= n -> fits n (m + length l) xs -> fits n m (map OPut l ++ xs).
Proof.
  induction l as [|b l IH]; intros m xs H1 H2; cbn [map app length fits] in *; [now rewrite Nat.add_0_r in H2|].
  split; [lia|]. apply IH; [lia|]. now replace (m + 1 + length l) with (m + S (length l)) by lia.
Qed.
Lemma expand_fits n xs : forall i m, keeps_up c n i m xs -> fits n m (expand i xs) \/ ~ steps_only xs.
Proof.
  induction xs as [|x xs IH]; intros i m K; [left; exact I|]. destruct x as [r | x]; cbn [expand keeps_up fits] in *.
  - destruct K as [K1 K2]. destruct (IH _ _ K2) as [F | F].
    + left. apply fits_puts; rewrite rbytes_len; assumption.
    + right. intros G. inversion G; auto.
  - destruct x as [b | |b|]; [right; intros G; inversion G; auto | | |];
    (destruct (IH _ _ K) as [F | F]; [left; exact F | right; intros G; inversion G; auto]).
Qed.

Lemma runs_app {S O R : Type} (step : S -> O -> res (S * R)) : forall a s b, runs step s (a ++ b) =
  do (s, x) <- runs step s a; do (s, y) <- runs step s b; Ok (s, x ++ y).
Proof.
  induction a as [|o a IH]; intros s b; cbn [app runs bind].
  - destruct (runs step s b) as [[? ?]|]; reflexivity.
  - destruct (step s o) as [[s1 x]|]; cbn [bind]; [|reflexivity]. rewrite IH.
    destruct (runs step s1 a) as [[s2 xs]|]; cbn [bind]; [|reflexivity]. destruct (runs step s2 b) as [[s3 ys]|]; reflexivity.
Qed.
Lemma runs_puts l : forall s pc, runs (f_step (rc_st c) rdr) (mkF s pc) (map FPut l) =
  do s <- putl (rc_st c) s l; Ok (mkF s pc, map OPut l).
Proof.
  induction l as [|b l IH]; intros s pc; cbn [map runs putl bind]; [reflexivity|]. cbn [f_step f_stm f_pc].
  destruct (st_put _ s b) as [s1|]; cbn [bind]; [|reflexivity]. rewrite IH. destruct (putl _ s1 l); reflexivity.
Qed.
Fixpoint trans (i : nat) (ops : list kop) : list fop :=
  match ops with
  | [] => []
  | KRec r :: ops => map FPut (rbytes i r) ++ trans (S i) ops
  | KStep :: ops => FStep :: trans i ops
  end.
Lemma step_not_put f f' x : f_step (rc_st c) rdr f FStep = Ok (f', x) -> match x with OPut _ => False | _ => True end.
Proof.
  cbn [f_step]. destruct (f_pc f); [destruct (take _ _ _) as [? [[?|] ?]]; intros E; injection E as _ <-; exact I| |destruct (take _ _ _) as [? [[?|] ?]]; intros E; injection E as _ <-; exact I].
  destruct (rd _ _); cbn [bind]; [|discriminate]. intros E. injection E as _ <-. exact I.
Qed.
(** A run of records and steps is a run of puts and steps. *)
Lemma link_run ops : Forall kop_ok ops -> forall i t pc f xs, (t_nseq t = N.of_nat i mod 256 \/ rc_nseq c = false)%N ->
  runs (f_step (rc_st c) rdr) (mkF (t_stm t) pc) (trans i ops) = Ok (f, xs) ->
  exists k ys, runs (k_step c rdr) (mkLink t pc) ops = Ok (k, ys) /\ mkF (t_stm (k_trc k)) (k_pc k) = f /\ xs = expand i ys /\ steps_only ys /\
    recs_of ys = flat_map (fun o => match o with KRec r => [r] | KStep => [] end) ops.
Proof.
  destruct Hc as (Hs & Hid & Hts).
  induction 1 as [|o ops Ho Hops IH]; intros i t pc f xs Hq E; cbn [trans runs] in *.
  - injection E as <- <-. exists (mkLink t pc), []. repeat split. constructor.
  - destruct o as [r|].
    + rewrite runs_app, runs_puts in E. destruct (do_rec_puts c Hid Hts t r Ho) as (k & Er).
      replace (body c (t_nseq t) r) with (body c (N.of_nat i mod 256) r) in Er by (apply body_q; destruct Hq as [-> | Hq]; [left; reflexivity | right; exact Hq]).
      fold (rbytes i r) in Er. destruct (putl _ (t_stm t) (rbytes i r)) as [s1|] eqn:Ep; [|discriminate]. cbn [bind] in E, Er.
      destruct (runs _ (mkF s1 pc) (trans (S i) ops)) as [[f1 xs1]|] eqn:E1; [|discriminate]. cbn [bind] in E. injection E as <- <-.
      destruct (IH (S i) (mkTrc s1 k (nextq c (t_nseq t))) pc f1 xs1) as (k' & ys & R & E2 & E3 & E4 & E5); [| exact E1 |].
      { cbn [t_nseq]. unfold nextq. destruct (rc_nseq c); [|right; reflexivity]. destruct Hq as [-> | Hq]; [|discriminate]. left.
        unfold u8. rewrite N.add_mod_idemp_l by discriminate. f_equal. lia. }
      exists k', (KORec r :: ys). cbn [k_step k_trc k_pc]. rewrite Er. cbn [bind]. rewrite R. cbn [bind]. split; [reflexivity|]. split; [exact E2|].
      split; [cbn [expand]; rewrite E3; reflexivity|]. split; [constructor; [exact I | exact E4]|]. unfold recs_of in *. cbn. rewrite E5. reflexivity.
    + cbn [k_step k_trc k_pc]. cbn [runs] in E. destruct (f_step _ _ _ FStep) as [[f1 x]|] eqn:E0; [|discriminate]. pose proof (step_not_put _ _ _ E0) as Hx.
      cbn [bind] in E. cbn [bind].
      destruct (runs _ f1 (trans i ops)) as [[f2 xs1]|] eqn:E1; [|discriminate]. cbn [bind] in E. injection E as <- <-.
      destruct (IH i (mkTrc (f_stm f1) (t_chk t) (t_nseq t)) (f_pc f1) f2 xs1) as (k' & ys & R & E2 & E3 & E4 & E5); [exact Hq | destruct f1; exact E1 |].
      rewrite R. cbn [bind]. exists k', (KOStep x :: ys). split; [reflexivity|]. split; [exact E2|]. split; [cbn [expand]; rewrite E3; reflexivity|].
      split; [constructor; [exact Hx | exact E4] | exact E5].
Qed.

(** * Complete frames of a part *)
Lemma frames_acc_short e : flagfree e -> forall acc, frames_ acc e = [].
Proof. induction 1 as [|b e Hb He IH]; intros acc; cbn [frames_]; [reflexivity|]. change 0x7E%N with FLG. rewrite (proj2 (N.eqb_neq _ _) Hb). apply IH. Qed.
Lemma frames_prefix F : Forall flagfree F -> forall p, prefix p (stream_of F) -> exists j, j <= length F /\ frames p = firstn j F.
Proof.
  induction 1 as [|e F He HF IH]; intros p [t Ht]; cbn [stream_of flat_map] in Ht.
  - destruct p; [|discriminate]. exists 0. split; [cbn; lia | reflexivity].
  - fold (stream_of F) in Ht. destruct (Nat.le_gt_cases (length p) (length e)) as [H | H].
    + exists 0. split; [lia|]. cbn [firstn]. apply frames_acc_short. assert (p = firstn (length p) e) as ->.
      { apply (f_equal (firstn (length p))) in Ht. rewrite <- app_assoc, !firstn_app in Ht.
        replace (length p - length e) with 0 in Ht by lia. rewrite Nat.sub_diag in Ht. cbn in Ht. rewrite !app_nil_r, firstn_all in Ht. auto. }
      apply Forall_forall. intros x Hx. rewrite <- (firstn_skipn (length p) e) in He. apply Forall_app in He as [He _]. exact (proj1 (Forall_forall _ _) He x Hx).
    + assert (exists q, p = e ++ FLG :: q /\ stream_of F = q ++ t) as (q & -> & Hq).
      { exists (skipn (length e + 1) p). assert (p = firstn (length e + 1) p ++ skipn (length e + 1) p) as Hp by (symmetry; apply firstn_skipn).
        assert (firstn (length e + 1) p = e ++ [FLG]) as Hf.
        { apply (f_equal (firstn (length e + 1))) in Ht. rewrite !firstn_app in Ht. replace (length e + 1 - length p) with 0 in Ht by lia.
          rewrite app_length in Ht. cbn [length] in Ht. rewrite Nat.sub_diag in Ht. cbn [firstn] in Ht. rewrite !app_nil_r in Ht.
          rewrite firstn_all2 in Ht by lia. replace (length e + 1 - length e) with 1 in Ht by lia. auto. }
        rewrite Hf, <- app_assoc in Hp. split; [exact Hp|]. rewrite Hp, <- !app_assoc in Ht. apply app_inv_head in Ht. cbn in Ht. injection Ht as Ht. exact Ht. }
      destruct (IH q (ex_intro _ t Hq)) as (j & Hj & Ej). exists (S j). split; [cbn [length]; lia|].
      unfold frames. rewrite (frames_app e He). cbn [rev app firstn]. f_equal. exact Ej.
Qed.
End Link.
