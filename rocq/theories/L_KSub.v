(** Proofs: publish and subscribe in every interleaving. *)
From Verif Require Import Base L_Base M_RdyGrp S_RdyGrp L_RdyGrp M_Queue S_Queue M_MemPool S_MemPool L_MemPool M_Kernel S_Kernel
  L_KMem L_KQueue L_Kernel L_KRun L_KBoot L_KProps L_KTab S_App L_App S_KSub.
From Coq Require Import Permutation.
Local Open Scope N_scope.

Section R.
Context (c : kcfg) (statics : list (N * N)).
Lemma hstep_c x ch x' : hstep c statics x ch = Ok x' -> cstep c statics (h_c x) ch = Ok (h_c x').
Proof.
  unfold hstep. intros H. apply bind_ok in H. destruct H as (y & E & H). rewrite E. f_equal.
  destruct ch as [|op|]; destruct (c_stk (h_c x)) as [|top stk];
    repeat match type of H with
    | match ?b with _ => _ end = _ => destruct b
    | (if ?b then _ else _) = _ => destruct b
    end; injection H as <-; reflexivity.
Qed.
Lemma hstep_total x ch y : cstep c statics (h_c x) ch = Ok y -> exists x', hstep c statics x ch = Ok x' /\ h_c x' = y.
Proof.
  unfold hstep. intros E. rewrite E. cbn [bind].
  destruct ch as [|op|]; destruct (c_stk (h_c x)) as [|top stk];
    repeat match goal with
    | |- exists _, match ?b with _ => _ end = _ /\ _ => destruct b
    | |- exists _, (if ?b then _ else _) = _ /\ _ => destruct b
    end; eexists; split; reflexivity.
Qed.
Lemma hrun_c chs : forall x x', hrun c statics x chs = Ok x' -> crun c statics (h_c x) chs = Ok (h_c x').
Proof.
  induction chs as [|ch t IH]; intros x x' H; cbn [hrun crun] in *; [now injection H as <-|].
  apply bind_ok in H. destruct H as (y & E & H). rewrite (hstep_c _ _ _ E). cbn [bind]. auto.
Qed.
Lemma hrun_total chs : forall x y, crun c statics (h_c x) chs = Ok y -> exists x', hrun c statics x chs = Ok x' /\ h_c x' = y.
Proof.
  induction chs as [|ch t IH]; intros x y H; cbn [hrun crun] in *; [injection H as <-; eauto|].
  apply bind_ok in H. destruct H as (z & E & H). destruct (hstep_total x ch z E) as (x1 & E1 & <-). rewrite E1. cbn [bind]. auto.
Qed.
Lemma hrun_snoc chs ch x : hrun c statics x (chs ++ [ch]) = do y <- hrun c statics x chs; hstep c statics y ch.
Proof.
  revert x. induction chs as [|h t IH]; intros x; cbn [hrun app bind].
  - destruct (hstep c statics x ch); reflexivity.
  - destruct (hstep c statics x h) as [y|]; [apply IH|reflexivity].
Qed.
End R.

Lemma subs_app h1 h2 : subs (h1 ++ h2) = subs h1 ++ subs h2.
Proof. unfold subs. now rewrite map_app, concat_app. Qed.
Lemma puts_app l1 l2 : puts (l1 ++ l2) = puts l1 ++ puts l2.
Proof. unfold puts. now rewrite map_app, concat_app. Qed.

Section K.
Context (c : kcfg) (mem0 : @mem cell) (statics : list (N * N)) (prios : list N)
  (dqs : list (list (option N) * nat)) (pools : list (N * N * N)) (rs : list N).
Context (SO : sys_ok c mem0 statics prios dqs pools rs).
Notation PB := (pool_lists pools rs).
Notation reachable := (reachable c mem0 statics prios dqs pools).
Notation RI := (reach_inv c mem0 statics prios dqs pools rs SO).
Notation max := (max_sma (q_rg (k_qc c))).
Notation Hmax := (so_max _ _ _ _ _ _ _ SO).
Notation Hasrt := (so_asrt _ _ _ _ _ _ _ SO).

(** *** Registration lasts until the object is terminated *)
Definition had (x : conf) (o : nat) : Prop := registered (c_s x) o = true \/ In (EL (KOff o)) (c_log x).
Lemma registered_step x ch x' o : reachable x -> cstep c statics x ch = Ok x' ->
  had x o -> had x' o.
Proof.
  intros H E Hr. pose proof (reach_step _ _ _ _ _ _ _ _ _ H E) as H'.
  pose proof (init_reg c mem0 statics prios dqs pools rs SO x H o) as I1.
  pose proof (init_reg c mem0 statics prios dqs pools rs SO x' H' o) as I2.
  assert (Hl : exists m, c_log x' = c_log x ++ m).
  { destruct (reach_cases c mem0 statics prios dqs pools rs SO x ch x' H E) as [(_ & El)|(top & stk & labs & p' & (_ & _ & A3) & _)].
    - exists []. now rewrite app_nil_r.
    - rewrite A3. cbn [c_log]. eauto. }
  destruct Hl as [m El]. destruct Hr as [Hr|Hr]; [|right; rewrite El; apply in_app_iff; now left].
  destruct (registered (c_s x') o) eqn:Hr'; [now left|right].
  rewrite El, init_count_app, off_count_app, I1, Hr in I2. rewrite El. apply in_app_iff. right.
  assert (Hm : (0 < off_count o m)%nat) by lia. unfold off_count in Hm.
  destruct (filter _ m) as [|y t] eqn:Ef; [cbn in Hm; lia|]. assert (Hy : In y (y :: t)) by now left. rewrite <- Ef in Hy.
  apply filter_In in Hy. destruct Hy as [Hy E1]. destruct y as [[]|]; try discriminate. apply Nat.eqb_eq in E1. now subst.
Qed.

(** *** What publishing puts *)
Lemma post_sp lifo s o e s' l : post_sec c lifo s o e = Ok (s', l) -> k_sp s' = k_sp s /\ l = [KPut lifo o e].
Proof.
  unfold post_sec. intros H. apply bind_ok in H. destruct H as (s1 & E1 & H). apply bind_ok in H. destruct H as (a & _ & H).
  apply bind_ok in H. destruct H as ([q g] & _ & H). apply bind_ok in H. destruct H as (l1 & _ & H). injection H as <- <-.
  split; [|reflexivity]. cbn [k_sp set_rg set_ao]. clear - E1. unfold inc_ref in E1. apply bind_ok in E1.
  destruct E1 as ([[sig n] p] & _ & E1). destruct (p =? 0); [now injection E1 as <-|].
  apply bind_ok in E1. destruct E1 as (m & _ & E1). injection E1 as <-. reflexivity.
Qed.
Lemma pub_puts e sender : forall ps s labs s' labs', (forall p, In p ps -> p < 256) ->
  cb_fold (ps_cb c e sender) ps (s, labs) = Ok (s', labs') ->
  exists os, map (fun p => nth_error (k_sp s) (N.to_nat p)) ps = map (fun o => Some (Some o)) os /\
    puts labs' = puts labs ++ map (fun o => (o, e)) (filter (fun o => negb (is_sender sender o)) os).
Proof.
  induction ps as [|p ps IH]; intros s labs s' labs' Hp E; cbn [cb_fold] in E.
  - injection E as <- <-. exists []. split; [reflexivity|]. now rewrite app_nil_r.
  - apply bind_ok in E. destruct E as ([s1 labs1] & E1 & E). assert (Hp' : forall q, In q ps -> q < 256) by (intros; apply Hp; now right).
    destruct (IH _ _ _ _ Hp' E) as (os & Eos & Ep). clear IH E. unfold ps_cb in E1. rewrite u8_small in E1 by (apply Hp; now left).
    apply bind_ok in E1. destruct E1 as (x & Ex & E1). apply rd_ok in Ex. apply bind_ok in E1. destruct E1 as ([] & Ea & E1).
    rewrite Hasrt in Ea. destruct x as [o|]; [|discriminate].
    change (match sender with Some o' => Nat.eqb o o' | None => false end) with (is_sender sender o) in E1.
    exists (o :: os). cbn [map filter]. destruct (is_sender sender o); cbn [negb].
    + injection E1 as <- <-. split; [congruence|exact Ep].
    + apply bind_ok in E1. destruct E1 as ([s2 l2] & E2 & E1). injection E1 as <- <-. destruct (post_sp _ _ _ _ _ _ E2) as [Esp ->].
      rewrite Esp in Eos. split; [congruence|]. rewrite Ep, puts_app, <- app_assoc. reflexivity.
Qed.

(** *** The invariant *)
Definition pend_ok (op : kop) : Prop :=
  let obj o := exists p, nth_error prios o = Some p /\ p < max in
  match op with
  | OSub ch o | OUnsub ch o => (ch < N.of_nat (k_maxch c) /\ ch < 256) /\ obj o
  | OUnsubAll o => obj o
  | OPublish ch _ _ => ch < N.of_nat (k_maxch c) /\ ch < 256
  | _ => False
  end.
Definition fr_ok (f : frame) (r : option kop) : Prop :=
  match r with Some op => pend_ok op /\ f_p f = api c op | None => keeps (f_p f) end.
Definition pub_ok (s : conf) (h : list hev) : Prop :=
  forall h1 ch e sn ps h2, h = h1 ++ HPub ch e sn ps :: h2 ->
  exists os, map (nth_error prios) os = map Some (members max prios h1 ch) /\
    (forall o, In o os -> had s o) /\
    ps = map (fun o => (o, e)) (filter (fun o => negb (is_sender sn o)) os).
Record HI (x : hconf) : Prop := {
  hi_c : reachable (h_c x);
  hi_stk : Forall2 fr_ok (c_stk (h_c x)) (h_run x);
  hi_tab : sub_tab c (c_s (h_c x)) (subscribed prios (subs (h_hist x)));
  hi_pub : pub_ok (h_c x) (h_hist x);
  hi_made : Permutation (h_made x) (map hop (h_hist x) ++ waiting (h_run x)) }.

Lemma sub_tab_keep s s' f : keep s s' -> sub_tab c s f -> sub_tab c s' f.
Proof. intros [E _] [H1 H2]. split; rewrite E; assumption. Qed.
Lemma pub_ok_mono s s' h : (forall o, had s o -> had s' o) -> pub_ok s h -> pub_ok s' h.
Proof. intros Hm H h1 ch e sn ps h2 E. destruct (H _ _ _ _ _ _ E) as (os & A & B & D). exists os. auto. Qed.
Lemma pub_ok_snoc s h x : pub_ok s h -> (forall ch e sn ps, x = HPub ch e sn ps ->
    exists os, map (nth_error prios) os = map Some (members max prios h ch) /\ (forall o, In o os -> had s o) /\
    ps = map (fun o => (o, e)) (filter (fun o => negb (is_sender sn o)) os)) -> pub_ok s (h ++ [x]).
Proof.
  intros H Hx h1 ch e sn ps h2 E. destruct h2 as [|y h2] using rev_ind.
  - apply app_inj_tail in E. destruct E as [-> ->]. apply Hx. reflexivity.
  - rewrite app_comm_cons, app_assoc in E. apply app_inj_tail in E. destruct E as [-> _]. eapply H. reflexivity.
Qed.

Lemma keeps_atom f s s' l p' : keeps (Atom f) -> f s = Ok (s', l, p') -> keep s s' /\ keeps p'.
Proof. intros H E. inversion H; subst. eauto. Qed.
Lemma keeps_sched : keeps (sched_once c).
Proof.
  constructor. intros s s' l p' H. destruct (rg_isReady (k_rg s)).
  - apply bind_ok in H. destruct H as (pr & _ & H). apply bind_ok in H. destruct H as (x & _ & H). injection H as <- <- <-.
    split; [apply keep_refl|]. destruct x as [o|]; [|constructor; discriminate].
    constructor. intros s1 s1' l1 p1 H. apply bind_ok in H. destruct H as (a & Ea & H).
    apply bind_ok in H. destruct H as ([[q g] e] & _ & H). apply bind_ok in H. destruct H as (l2 & Ew & H).
    apply bind_ok in H. destruct H as (e' & _ & H). injection H as <- <- <-. apply wr_ok in Ew. destruct Ew as [_ ->].
    split; [eapply keep_ao; [exact Ea|reflexivity|reflexivity]|]. constructor. apply keeps_gc.
  - injection H as <- <- <-. split; [apply keep_refl|]. repeat constructor.
Qed.

(** One publish/subscribe atom. *)
Lemma sub_atom s op f s' labs p' h : sub_tab c s (subscribed prios (subs h)) -> map ao_prio (k_ao s) = prios ->
  pend_ok op -> is_sub op = true -> api c op = Atom f -> f s = Ok (s', labs, p') ->
  sub_tab c s' (subscribed prios (subs (h ++ [note op labs]))) /\ keeps p' /\
  (forall o, registered s' o = registered s o).
Proof.
  intros HT Hpr Hok Eis Ea Ef.
  assert (Hobj : forall o p, nth_error prios o = Some p -> exists a, nth_error (k_ao s) o = Some a /\ ao_prio a = p).
  { intros o p Hn. rewrite <- Hpr, nth_error_map in Hn. destruct (nth_error (k_ao s) o) as [a|]; [|discriminate].
    injection Hn as <-. eauto. }
  assert (Hex : exec (api c op) s = match exec p' s' with Ok (s2, l2, v) => Ok (s2, labs ++ l2, v) | Fault e => Fault e end).
  { rewrite Ea. cbn [exec]. now rewrite Ef. }
  assert (Hret : p' = Ret 0).
  { destruct op; try discriminate; cbn [api] in Ea; injection Ea as <-;
      repeat (apply bind_ok in Ef; destruct Ef as (? & _ & Ef)); injection Ef as <- <- <-; reflexivity. }
  subst p'. cbn [exec] in Hex. split; [|split; [constructor|]].
  - assert (Hsb : forall (b : bool) ch o, ch < N.of_nat (k_maxch c) -> ch < 256 -> (exists p, nth_error prios o = Some p /\ p < max) ->
        exec (if b then ps_subscribe c ch o else ps_unsubscribe c ch o) s = Ok (s', labs ++ [], 0) ->
        sub_tab c s' (fun ch' p => match (if (ch' =? u8 ch) && match nth_error prios o with Some p' => p =? p' | None => false end then Some b else None)
           with Some b => b | None => subscribed prios (subs h) ch' p end)).
    { intros b ch o H1 H2 (p & Hn & Hlt) Eb. destruct (Hobj o p Hn) as (a & Ho & <-).
      destruct (sub_call c Hmax s o a ch b _ HT Ho Hlt ltac:(rewrite u8_small by exact H2; exact H1)) as (l' & El & HT').
      rewrite El in Eb. injection Eb as <- _. eapply sub_tab_ext; [|exact HT']. intros ch' q. cbv beta. rewrite Hn.
      destruct ((ch' =? u8 ch) && (q =? ao_prio a)); reflexivity. }
    rewrite subs_app. destruct op as [| | | | |ch o|ch o|o| | | | |]; try discriminate; cbn [api] in Hex;
      cbn [note subs map concat app]; cbn [pend_ok] in Hok.
    + destruct Hok as [[H1 H2] H3]. eapply sub_tab_ext; [|exact (Hsb true ch o H1 H2 H3 Hex)].
      intros ch' p. cbv beta. rewrite subscribed_snoc. reflexivity.
    + destruct Hok as [[H1 H2] H3]. eapply sub_tab_ext; [|exact (Hsb false ch o H1 H2 H3 Hex)].
      intros ch' p. cbv beta. rewrite subscribed_snoc. reflexivity.
    + destruct Hok as (p & Hn & Hlt). destruct (Hobj o p Hn) as (a & Ho & <-).
      destruct (unsub_call c Hmax s o a _ HT Ho Hlt) as (l' & El & HT'). rewrite El in Hex. injection Hex as <- _.
      eapply sub_tab_ext; [|exact HT']. intros ch' q. cbv beta. rewrite subscribed_snoc. cbn [sub_rel]. rewrite Hn.
      destruct (q =? ao_prio a); reflexivity.
  - intros o. destruct op; try discriminate; cbn [api] in Ea; injection Ea as <-;
      repeat (apply bind_ok in Ef; destruct Ef as (? & _ & Ef)); injection Ef as <- <-; reflexivity.
Qed.

Lemma inc_sp s e s' : inc_ref s e = Ok s' -> k_sp s' = k_sp s /\ k_ch s' = k_ch s.
Proof.
  intros E1. unfold inc_ref in E1. apply bind_ok in E1.
  destruct E1 as ([[sig n] p] & _ & E1). destruct (p =? 0); [now injection E1 as <-|].
  apply bind_ok in E1. destruct E1 as (m & _ & E1). injection E1 as <-. split; reflexivity.
Qed.
Lemma pub_atom x ch e sn f s' labs p' h : reachable x -> sub_tab c (c_s x) (subscribed prios (subs h)) ->
  ch < N.of_nat (k_maxch c) -> ch < 256 -> ps_publish c ch e sn = Atom f -> f (c_s x) = Ok (s', labs, p') ->
  exists os, map (nth_error prios) os = map Some (members max prios h ch) /\
    (forall o, In o os -> registered (c_s x) o = true) /\
    puts labs = map (fun o => (o, e)) (filter (fun o => negb (is_sender sn o)) os).
Proof.
  intros Hx HT H1 H2 Ea Ef. injection Ea as <-. set (s := c_s x) in *.
  apply bind_ok in Ef. destruct Ef as (s1 & E1 & Ef). destruct (inc_sp _ _ _ E1) as [Esp Ech].
  apply bind_ok in Ef. destruct Ef as (g & E2 & Ef). apply bind_ok in Ef. destruct Ef as ([n [s2 labs2]] & E3 & Ef).
  injection Ef as <- <- _. rewrite u8_small in E2 by exact H2. apply rd_ok in E2. rewrite Ech in E2.
  pose proof (proj2 HT _ _ E2) as HR. rewrite N2Nat.id in HR. rewrite (rg_traverse_rel _ _ _ _ _ Hmax HR) in E3.
  apply bind_ok in E3. destruct E3 as ([s3 labs3] & E3 & E4). injection E4 as _ <- <-.
  assert (Hlt : forall p, In p (elements max (subscribed prios (subs h) ch)) -> p < 256).
  { intros p Hp. apply in_elements in Hp. pose proof Hmax. lia. }
  destruct (pub_puts e sn _ _ _ _ _ Hlt E3) as (os & Eos & Ep).
  exists os. rewrite Esp in Eos. change (elements max (subscribed prios (subs h) ch)) with (members max prios h ch) in Eos.
  pose proof (ki_q _ _ _ _ _ _ _ _ _ (ci_k _ _ _ _ _ _ _ _ (RI x Hx))) as HQ. fold s in HQ.
  assert (Hall : Forall2 (fun p o => nth_error (k_sp s) (N.to_nat p) = Some (Some o)) (members max prios h ch) os).
  { revert Eos. generalize (members max prios h ch). intros ps. revert os Ep. clear. intros os _. revert os.
    induction ps as [|p ps IH]; intros [|o os] E; try discriminate; constructor; cbn [map] in E; injection E as E1 E2; auto. }
  assert (Hone : forall p o, nth_error (k_sp s) (N.to_nat p) = Some (Some o) -> nth_error prios o = Some p /\ registered s o = true).
  { intros p o Hs. destruct (kq_sp _ _ _ _ _ _ _ _ HQ _ _ Hs) as (a & Ho & Hpa). assert (ao_prio a = p) by lia.
    split; [rewrite <- (kq_prios _ _ _ _ _ _ _ _ HQ), nth_error_map, Ho; cbn; congruence|].
    unfold registered. rewrite Ho, H, Hs. apply Nat.eqb_refl. }
  split; [|split].
  - clear - Hall Hone. induction Hall as [|p o ps os H _ IH]; [reflexivity|]. cbn [map]. now rewrite (proj1 (Hone p o H)), IH.
  - intros o Ho. clear - Hall Hone Ho. induction Hall as [|p o' ps os H _ IH]; [destruct Ho|].
    destruct Ho as [->|Ho]; [apply (Hone p o H)|auto].
  - exact Ep.
Qed.

Lemma hi_init s : start c mem0 prios dqs pools = Ok s -> HI (hconf0 s).
Proof.
  intros Es. assert (Hr : reachable (conf0 s)) by (exists s, []; auto).
  assert (Hch : forall ps s s', boot c s ps = Ok s' -> k_ch s' = k_ch s).
  { clear. induction ps as [|[[a n] b] ps IH]; intros s s' H; cbn [boot] in H; [now injection H as <-|].
    apply bind_ok in H. destruct H as (s1 & E & H). rewrite (IH _ _ H). clear IH H. unfold fwk_registerEvtPool in E.
    apply bind_ok in E. destruct E as (? & _ & E). apply bind_ok in E. destruct E as ([s2 ep] & Eg & E).
    repeat (apply bind_ok in E; destruct E as (? & _ & E)). injection E as <-. cbn [k_ch set_pools].
    unfold evtPool_getPool in Eg. destruct (find_unused (k_ep s) 0); [|injection Eg as <- _; reflexivity].
    apply bind_ok in Eg. destruct Eg as ([q m] & _ & Eg). apply bind_ok in Eg. destruct Eg as (? & _ & Eg). injection Eg as <- _. reflexivity. }
  constructor; cbn [hconf0 h_c h_run h_hist h_made conf0 c_stk c_s].
  - exact Hr.
  - constructor; [|constructor]. cbn. repeat constructor.
  - apply (init_tab c s). exact (Hch _ _ _ Es).
  - intros h1 ch e sn ps h2 E. destruct h1; discriminate.
  - constructor.
Qed.

Lemma pend_grab s L l lower isr op y : KInv c statics PB mem0 rs prios (length dqs) s L -> grab c statics s l lower isr op = Some y ->
  is_ps op = true -> pend_ok op.
Proof.
  intros HK Hg Hi. unfold grab in Hg. destruct (op_ok c statics s isr op) as [ev|] eqn:Eo; [|discriminate]. clear Hg.
  destruct op as [| | | |ch e sn|ch o|ch o|o| | | | |]; try discriminate; cbn [op_ok] in Eo; cbn [pend_ok].
  - destruct (ch_ok c ch) eqn:E; [|discriminate]. unfold ch_ok in E. apply andb_true_iff in E. lia.
  - destruct (ch_ok c ch && ao_in_range c s o) eqn:E; [|discriminate]. unfold ch_ok in E. rewrite !andb_true_iff in E.
    destruct E as [[H1 H2] H3]. split; [lia|]. apply (range_prio _ _ _ _ _ _ _ _ _ _ HK H3).
  - destruct (ch_ok c ch && ao_in_range c s o) eqn:E; [|discriminate]. unfold ch_ok in E. rewrite !andb_true_iff in E.
    destruct E as [[H1 H2] H3]. split; [lia|]. apply (range_prio _ _ _ _ _ _ _ _ _ _ HK H3).
  - destruct (ao_in_range c s o) eqn:H3; [|discriminate]. apply (range_prio _ _ _ _ _ _ _ _ _ _ HK H3).
Qed.

Lemma api_ps_atom op : is_ps op = true -> exists f, api c op = Atom f.
Proof. destruct op; try discriminate; intros _; eexists; reflexivity. Qed.

Lemma hi_step x ch x' : HI x -> hstep c statics x ch = Ok x' -> HI x'.
Proof.
  intros H E. pose proof (hstep_c _ _ _ _ _ E) as Ec. destruct x as [x made run hist], x' as [x' made' run' hist'].
  destruct H as [Hc Hs Ht Hp Hm]. cbn [h_c h_made h_run h_hist] in *.
  pose proof (reach_step _ _ _ _ _ _ _ _ _ Hc Ec) as Hc'.
  pose proof (fun o => registered_step x ch x' o Hc Ec) as Hreg.
  pose proof (reach_prios c mem0 statics prios dqs pools rs SO x Hc) as Hpr.
  assert (Hsame : c_s x' = c_s x -> Forall2 fr_ok (c_stk x') run' -> Permutation made' (map hop hist' ++ waiting run') -> hist' = hist ->
     HI (mkH x' made' run' hist')).
  { intros Es H1 H2 ->. constructor; cbn [h_c h_made h_run h_hist]; auto; [now rewrite Es|eapply pub_ok_mono; eauto]. }
  unfold hstep in E. cbn [h_c h_made h_run h_hist] in E. rewrite Ec in E. cbn [bind] in E.
  destruct x as [s l stk log]. cbn [c_s c_led c_stk c_log] in *. destruct ch as [|op|].
  - destruct stk as [|[isr led p] stk].
    { injection E as <- <- <-. cbn [cstep c_stk] in Ec. injection Ec as <-. apply Hsame; auto. }
    cbn [f_p] in E. cbn [cstep c_stk c_s c_led c_log f_p f_led f_isr] in Ec. inversion Hs as [|? r ? run0 H1 H2]; subst. 
    destruct p as [v|f|u k].
    + injection E as <- <- <-. destruct r as [op|].
      { destruct H1 as [Hok Ha]. cbn [f_p] in Ha. destruct op; try destruct Hok; discriminate. }
      destruct stk as [|g stk]; injection Ec as <-; apply Hsame; auto; cbn [c_stk].
      * constructor; [exact keeps_sched|constructor].
      * inversion H2; subst. cbn [waiting map concat app] in Hm. exact Hm.
    + unfold taken in E. cbn [c_stk c_s f_p f_led c_led] in E. destruct (f s) as [[[s' labs] p']|] eqn:Ef; [|discriminate].
      destruct (over statics s' _ || stranded s') eqn:Eov.
      { injection E as <- <- <-. injection Ec as <-. apply Hsame; auto. }
      injection Ec as <-. cbn [c_s c_stk] in *. destruct r as [op|].
      * injection E as <- <- <-. destruct H1 as [Hok Ha]. cbn [f_p] in Ha. symmetry in Ha.
        assert (Hper : Permutation made (map hop (hist ++ [note op labs]) ++ waiting (None :: run0))).
        { rewrite map_app, <- app_assoc. cbn [map app waiting concat] in *.
          replace (hop (note op labs)) with op by (destruct op; reflexivity). exact Hm. }
        destruct (is_sub op) eqn:Eis.
        -- destruct (sub_atom s op f s' labs p' hist Ht Hpr Hok Eis Ha Ef) as (T' & K' & R').
           constructor; cbn [h_c h_made h_run h_hist c_stk c_s]; [exact Hc'|constructor; [exact K'|exact H2]|exact T'| |exact Hper].
           apply pub_ok_snoc; [eapply pub_ok_mono; [|exact Hp]; exact Hreg|]. intros; destruct op; discriminate.
        -- destruct op as [| | | |pc e sn| | | | | | | |]; try (destruct Hok); try discriminate. 
           destruct (pub_atom _ pc e sn f s' labs p' hist Hc Ht H H0 Ha Ef) as (os & O1 & O2 & O3).
           pose proof (keeps_api c (OPublish pc e sn) eq_refl) as Kp. rewrite Ha in Kp.
           destruct (keeps_atom _ _ _ _ _ Kp Ef) as [K1 K2].
           constructor; cbn [h_c h_made h_run h_hist c_stk c_s]; [exact Hc'|constructor; [exact K2|exact H2]| | |exact Hper].
           { rewrite subs_app. cbn [note subs map concat]. rewrite app_nil_r. eapply sub_tab_keep; eauto. }
           apply pub_ok_snoc; [eapply pub_ok_mono; [|exact Hp]; exact Hreg|]. cbn [note]. intros ch' e' sn' ps' Eq.
           injection Eq as <- <- <- <-. exists os. split; [exact O1|]. split; [|exact O3]. intros o Ho. apply Hreg. left. exact (O2 o Ho).
      * injection E as <- <- <-. destruct (keeps_atom _ _ _ _ _ H1 Ef) as [K1 K2].
        constructor; cbn [h_c h_made h_run h_hist c_stk c_s]; [exact Hc'|constructor; [exact K2|exact H2]|eapply sub_tab_keep; eauto|eapply pub_ok_mono; eauto|exact Hm].
    + injection E as <- <- <-. injection Ec as <-. apply Hsame; auto. cbn [c_stk]. constructor; [|exact H2].
      destruct r as [op|]; [|cbn in *; now inversion H1]. destruct H1 as [Hok Ha]. cbn [f_p] in Ha. destruct op; try destruct Hok; discriminate.
  - destruct stk as [|top stk].
    { cbn [cstep c_stk] in Ec. injection Ec as <-. cbn [c_stk length] in E. change (0 <? 0)%nat with false in E. injection E as <- <- <-. apply Hsame; auto. }
    cbn [cstep c_stk c_s c_led c_log] in Ec.
    assert (Hn : forall y, c_stk y = top :: stk -> c_s y = s -> Ok y = Ok x' -> HI (mkH x' made' run' hist')).
    { intros y E1 E2 E3. injection E3 as <-. rewrite E1, Nat.ltb_irrefl in E. injection E as <- <- <-. apply Hsame; auto. now rewrite E1. }
    destruct (f_p top) as [v|f|u k] eqn:Ep; try (eapply Hn; [| |exact Ec]; reflexivity).
    destruct (grab c statics s l _ (f_isr top) op) as [[mine l']|] eqn:Eg; [|eapply Hn; [| |exact Ec]; reflexivity].
    injection Ec as <-. cbn [c_stk c_s] in *. replace (length (top :: stk) <? length (mkF (f_isr top) mine (api c op) :: top :: stk))%nat with true in E
      by (symmetry; apply Nat.ltb_lt; cbn [length]; lia).
    destruct (is_ps op) eqn:Eps; injection E as <- <- <-; apply Hsame; auto.
    + constructor; [|exact Hs]. split; [|reflexivity]. eapply pend_grab; [|exact Eg|exact Eps].
      exact (ci_k _ _ _ _ _ _ _ _ (RI _ Hc)).
    + cbn [waiting map concat app]. fold (waiting run). apply Permutation_sym. etransitivity; [apply Permutation_sym, Permutation_middle|].
      etransitivity; [apply Permutation_cons; [reflexivity|apply Permutation_sym; exact Hm]|]. apply Permutation_cons_append.
    + constructor; [|exact Hs]. cbn. apply keeps_api. destruct op; try discriminate; reflexivity.
  - injection E as <- <- <-. cbn [cstep] in Ec. injection Ec as <-. apply Hsame; auto. cbn [c_stk]. constructor; [|exact Hs]. cbn. repeat constructor.
Qed.

Lemma hi_run s chs x : start c mem0 prios dqs pools = Ok s -> hrun c statics (hconf0 s) chs = Ok x -> HI x.
Proof.
  intros Es. revert x. induction chs as [|ch chs IH] using rev_ind; intros x Ex.
  - injection Ex as <-. now apply hi_init.
  - rewrite hrun_snoc in Ex. apply bind_ok in Ex. destruct Ex as (y & Ey & Ex). eapply hi_step; eauto.
Qed.

Lemma hi_subs x ch : HI x -> ch < N.of_nat (k_maxch c) -> subscribers (c_s (h_c x)) ch = members max prios (h_hist x) ch.
Proof.
  intros H Hch. destruct (hi_tab _ H) as [Hl Hf]. unfold subscribers. destruct (nth_error (k_ch (c_s (h_c x))) (N.to_nat ch)) as [g|] eqn:Eg.
  2:{ apply nth_error_None in Eg. lia. }
  specialize (Hf _ _ Eg). rewrite N2Nat.id in Hf. rewrite (rg_list_rel _ _ _ Hmax Hf). reflexivity.
Qed.
Lemma hi_len x : HI x -> length (h_run x) = length (c_stk (h_c x)).
Proof. intros H. pose proof (hi_stk _ H) as F. induction F as [|f r stk run _ _ IH]; [reflexivity|]. cbn [length]. now rewrite IH. Qed.
End K.
