(** Trace records arrive. *)
From Verif Require Import Base L_Base M_TrcStream S_TrcStream L_TrcStream M_TrcRecord S_TrcRecord L_TrcRecord M_TzParse S_TzParse L_TzParse
  M_Flush S_Flush L_Flush M_Link S_Link L_Link.

(** C82: whatever is written, and whenever, nothing stops the application. *)
Theorem C82_never_faults : forall c rdr buf k0 ops, rc_cfg_ok c -> reader_ok (rc_st c) rdr -> length buf = sz (rc_st c) -> fresh c buf k0 ->
  Forall kop_ok ops -> exists k xs, runs (k_step c rdr) k0 ops = Ok (k, xs) /\
    recs_of xs = flat_map (fun o => match o with KRec r => [r] | KStep => [] end) ops.
Proof.
  intros c rdr buf k0 ops Hc Hr Hb (t & Et & ->) Ho.
  destruct (trc_init_rel c buf (proj1 Hc) Hb) as (t' & Et' & R & Q). rewrite Et in Et'. injection Et' as <-.
  assert (sound (rc_st c) [FLG] (mkF (t_stm t) FTake)) as S.
  { constructor; cbn; [|discriminate]. exists [FLG]. split; [exact R|]. exists []. reflexivity. }
  destruct (sound_run _ (proj1 Hc) rdr Hr (trans c 0 ops) _ _ S) as (f & ys & E & _).
  destruct (link_run c Hc rdr ops Ho 0 t FTake f ys (or_introl Q) E) as (k & xs & E1 & _ & _ & _ & E2). eauto.
Qed.

(** As long as the loop keeps up, the receiver on the other side of the line has
    decoded, at every moment, the first records written, and all of them when the
    loop ends.  The reader of the test harness (C73) reports all of them too. *)
Theorem C82_arrive : forall c rdr buf k0 ops k xs, rc_cfg_ok c -> reader_ok (rc_st c) rdr -> length buf = sz (rc_st c) -> fresh c buf k0 ->
  Forall kop_ok ops -> runs (k_step c rdr) k0 ops = Ok (k, xs) -> keeps_up c (sz (rc_st c)) 0 1 xs ->
  (exists j, j <= length (recs_of xs) /\ decode c (line_of xs) = firstn j (sents c 0 (recs_of xs))) /\
  forall ys, xs = ys ++ [KOStep ONull] ->
    decode c (line_of xs) = sents c 0 (recs_of xs) /\
    forall z o, rc_chk c = true -> tz_good z -> Forall (fun d => length d <= 255) (datas c 0 (recs_of xs)) ->
      Forall (fun r => (r_id r mod 256 <> 233)%N) (recs_of xs) ->
      exists z', trazer_run (trazer_init z) o (line_of xs) =
        Ok (z', fold_left effect (map CallParser (datas c 0 (recs_of xs))) o, map CallParser (datas c 0 (recs_of xs))).
Proof.
  intros c rdr buf k0 ops k xs Hc Hr Hb (t & Et & ->) Ho E K. pose proof Hc as (Hs & Hid & Hts).
  destruct (trc_init_rel c buf Hs Hb) as (t' & Et' & R & Q). rewrite Et in Et'. injection Et' as <-.
  assert (sound (rc_st c) [FLG] (mkF (t_stm t) FTake)) as S.
  { constructor; cbn; [|discriminate]. exists [FLG]. split; [exact R|]. exists []. reflexivity. }
  destruct (sound_run _ Hs rdr Hr (trans c 0 ops) _ _ S) as (f & zs & Ef & _).
  destruct (link_run c Hc rdr ops Ho 0 t FTake f zs (or_introl Q) Ef) as (k' & xs' & E1 & _ & -> & E4 & E5).
  rewrite E in E1. injection E1 as <- <-.
  destruct (expand_fits c _ _ _ _ K) as [F | F]; [|contradiction].
  destruct (exact_run (rc_st c) Hs rdr Hr (trans c 0 ops) [FLG] (mkF (t_stm t) FTake) R f (expand c 0 xs) Ef F) as (rest & X1 & _ & X3).
  rewrite (expand_sent c), (expand_put c _ E4) in X1.
  change ([FLG] ++ stream_of (contents c 0 (recs_of xs))) with (stream_of ([] :: contents c 0 (recs_of xs))) in X1.
  assert (Forall flagfree ([] :: contents c 0 (recs_of xs))) as HF by (constructor; [constructor | apply contents_flagfree]).
  assert (Forall rec_ok (recs_of xs)) as Hrs.
  { rewrite E5. clear -Ho. induction Ho as [|o ops Ho Hops IH]; [constructor|]. destruct o; cbn; [constructor; [exact Ho | exact IH] | exact IH]. }
  split.
  - destruct (frames_prefix _ HF (line_of xs)) as (j & Hj & Ej); [exists rest; exact X1|]. unfold decode. rewrite Ej.
    destruct j as [|j].
    + exists 0. split; [lia | reflexivity].
    + exists j. cbn [length] in Hj. rewrite contents_len in Hj. split; [lia|]. cbn [firstn tl]. rewrite <- firstn_map, (decode_contents c Hts). reflexivity.
  - intros ys ->. assert (rest = []) as ->.
    { clear -X3 E4. assert (exists zs, expand c 0 (ys ++ [KOStep ONull]) = zs ++ [ONull]) as [zs Hz]; [|exact (X3 zs Hz)].
      generalize 0. clear. induction ys as [|y ys IH]; intros i; [exists []; reflexivity|]. destruct y as [r | x]; cbn [app expand].
      - destruct (IH (S i)) as [zs ->]. eexists. rewrite app_assoc. reflexivity.
      - destruct (IH i) as [zs ->]. eexists (_ :: _). reflexivity. }
    rewrite app_nil_r in X1. set (xs := ys ++ [KOStep ONull]) in *. split.
    + rewrite <- X1. unfold decode. rewrite (frames_stream _ HF). cbn [tl]. apply (decode_contents c Hts).
    + intros z o Hk G Hl Hn. rewrite <- X1. change (stream_of ([] :: contents c 0 (recs_of xs))) with (0x7E%N :: stream_of (contents c 0 (recs_of xs))).
      destruct (reads_datas c Hk (trazer_init z) o (stream_of (contents c 0 (recs_of xs))) 0 (recs_of xs) Hc) as (z' & Ez & _); auto.
      * now apply contents_bytes.
      * apply frames_stream, contents_flagfree.
      * destruct (contents c 0 (recs_of xs)) as [|e L]; [reflexivity|]. destruct (stream_end e L) as (w & ->). apply rest_end.
      * exists z'. cbn [trazer_run]. unfold trazer_parse, trazer_init at 1.
        cbn [z_state set_state TZ_FLG N.eqb Pos.eqb parser_init z_trix N.ltb N.compare bind].
        change (0 <? z_trix (trazer_init z))%N with false. cbn [bind]. change (parser_init (trazer_init z)) with (trazer_init (trazer_init z)). rewrite Ez. reflexivity.
Qed.

(** * When the loop does not keep up *)
(** Records are lost then.  One might expect that what the receiver accepts, with
    checksums, was at least written. *)
Definition C82_genuine : Prop := forall c rdr buf k0 ops k xs, rc_cfg_ok c -> rc_chk c = true -> reader_ok (rc_st c) rdr ->
  length buf = sz (rc_st c) -> fresh c buf k0 -> Forall kop_ok ops -> runs (k_step c rdr) k0 ops = Ok (k, xs) ->
  forall p, In (Some p) (decode c (line_of xs)) -> exists i r, In r (recs_of xs) /\ Some p = sent c i r.
(** A block is written over while it is sent: the receiver accepts a record with the
    identifier and the first field of one record and the second field of another. *)
Definition c82 : rccfg := mkRcCfg (mkStCfg 10 256) 1 false 0 true 4 1.
Definition r82 (id a b : N) : rec := mkRec id 0 [IWidth 1 a; IWidth 1 b].
Definition k82 (c : rccfg) : link := mkLink (ok_or (mkTrc (mkStm [] 0 0 0) 0 0) (trc_init c (repeat 0%N (sz (rc_st c))))) FTake.
Lemma c82_ok : rc_cfg_ok c82.
Proof. repeat split; cbn; unfold width_ok; auto; lia. Qed.
Lemma k82_fresh c : rc_cfg_ok c -> fresh c (repeat 0%N (sz (rc_st c))) (k82 c).
Proof.
  intros Hc. destruct (trc_init_rel c (repeat 0%N (sz (rc_st c))) (proj1 Hc) (repeat_length _ _)) as (t & E & _). exists t. split; [exact E|]. unfold k82. rewrite E. reflexivity.
Qed.
Theorem C82_genuine_refuted : ~ C82_genuine.
Proof.
  intros H.
  set (ops := [KRec (r82 1 20 30)] ++ repeat KStep 4 ++ [KRec (r82 9 9 9); KRec (r82 2 19 70)] ++ repeat KStep 20).
  assert (Ho : Forall kop_ok ops) by (repeat constructor; cbn; unfold width_ok; auto).
  destruct (C82_never_faults c82 (ByBlock 128) _ _ ops c82_ok ltac:(cbn; lia) (repeat_length _ _) (k82_fresh c82 c82_ok) Ho) as (k & xs & E & Er).
  specialize (H c82 (ByBlock 128) _ _ ops k xs c82_ok eq_refl ltac:(cbn; lia) (repeat_length _ _) (k82_fresh c82 c82_ok) Ho E).
  assert (Hd : In (Some (mkPrec 1 None None [20; 70]%N)) (decode c82 (line_of xs))).
  { revert E. vm_compute. intros E. injection E as _ <-. vm_compute. auto. }
  destruct (H _ Hd) as (i & r & Hi & Hs). rewrite Er in Hi. cbn in Hi. unfold sent in Hs. cbn in Hs. injection Hs as _ Hs.
  destruct Hi as [<- | [<- | [<- | []]]]; discriminate.
Qed.

(** * Cases *)
Example C82_case :
  let ops := [KRec (r82 1 125 126); KStep; KStep; KStep; KStep; KStep; KRec (r82 2 19 70)] ++ repeat KStep 12 in
  Forall kop_ok ops /\ exists k ys, runs (k_step c82 (ByBlock 128)) (k82 c82) ops = Ok (k, ys ++ [KOStep ONull]) /\
    keeps_up c82 10 0 1 (ys ++ [KOStep ONull]) /\ recs_of ys = [r82 1 125 126; r82 2 19 70] /\
    line_of ys = [126; 1; 125; 93; 125; 94; 4; 126; 2; 19; 70; 165; 126]%N /\
    decode c82 (line_of ys) = [Some (mkPrec 1 None None [125; 126]%N); Some (mkPrec 2 None None [19; 70]%N)].
Proof.
  split; [repeat constructor; cbn; unfold width_ok; auto|].
  eexists _, ([KORec (r82 1 125 126); KOStep OTake] ++ map (fun b => KOStep (OSent b)) [126; 1; 125; 93]%N ++
    [KORec (r82 2 19 70)] ++ map (fun b => KOStep (OSent b)) [125; 94; 4; 126]%N ++ [KOStep OTake; KOStep (OSent 2); KOStep (OSent 19); KOStep OTake; KOStep (OSent 70); KOStep (OSent 165); KOStep (OSent 126)]%N)%list.
  split; [vm_compute; reflexivity|]. split; [vm_compute; lia|]. split; [reflexivity|]. split; vm_compute; reflexivity.
Qed.

Print Assumptions C82_never_faults.
Print Assumptions C82_arrive.
Print Assumptions C82_genuine_refuted.
