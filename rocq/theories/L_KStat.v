(** Proofs: the statistics of the event pools. *)
From Verif Require Import Base L_Base M_RdyGrp S_RdyGrp L_RdyGrp M_Queue S_Queue M_MemPool S_MemPool L_MemPool M_Kernel S_Kernel
  L_KMem L_KQueue L_Kernel L_KRun L_KBoot L_KProps L_App S_KStat.
From Coq Require Import Permutation.
Local Open Scope N_scope.

(** Free blocks and low mark of pool [i] along the log; [None]: an allocation with no
    block free. *)
Definition pl_step (i : nat) (r : option (N * N)) (x : entry) : option (N * N) :=
  match r, x with
  | Some (f, m), EL (KAlloc j _) => if Nat.eqb i j then (if f =? 0 then None else Some (f - 1, N.min m (f - 1))) else r
  | Some (f, m), EL (KFree j _) => if Nat.eqb i j then Some (f + 1, m) else r
  | _, _ => r
  end.

(** ** What single atoms do to the counters *)
Section P.
Context (c : kcfg) (Hasrt : q_asrt (k_qc c) = true).
Notation nbm := (nb_mod (k_mp c)).
Definition nopool (i : nat) (x : klab) : bool := match x with KAlloc j _ | KFree j _ => negb (Nat.eqb i j) | _ => true end.
Definition nopools (x : klab) : bool := match x with KAlloc _ _ | KFree _ _ => false | _ => true end.
Definition PS (s : kst) (labs : list klab) (s' : kst) : Prop :=
  forall i p, nth_error (k_ep s) i = Some p -> exists p', nth_error (k_ep s') i = Some p' /\
    ((forallb (nopool i) labs = true /\ mp_nfree p' = mp_nfree p /\ mp_nmin p' = mp_nmin p) \/
     (exists b, labs = [KAlloc i b] /\ mp_free p <> 0 /\ mp_nfree p' = (mp_nfree p + nbm - 1) mod nbm /\
        mp_nmin p' = if mp_nfree p' <? mp_nmin p then mp_nfree p' else mp_nmin p) \/
     (exists b, labs = [KFree i b] /\ mp_free p' <> 0 /\ mp_nfree p' = (mp_nfree p + 1) mod nbm /\ mp_nmin p' = mp_nmin p)).
Lemma PS_same s s' labs : k_ep s' = k_ep s -> forallb nopools labs = true -> PS s labs s'.
Proof.
  intros E Hl i p Hp. exists p. rewrite E. split; [exact Hp|]. left. split; [|auto].
  rewrite forallb_forall in *. intros x Hx. specialize (Hl x Hx). destruct x; try reflexivity; discriminate.
Qed.

Inductive psp : prog -> Prop :=
| psp_ret v : psp (Ret v)
| psp_user u k : psp k -> psp (User u k)
| psp_atom f : (forall s s' labs p', f s = Ok (s', labs, p') -> PS s labs s') ->
    (forall s s' labs p', f s = Ok (s', labs, p') -> psp p') -> psp (Atom f).
Lemma psp_both f : (forall s s' labs p', f s = Ok (s', labs, p') -> PS s labs s' /\ psp p') -> psp (Atom f).
Proof. intros H. constructor; intros; eapply H; eauto. Qed.
Lemma psp_pseq p k : psp p -> (forall v, psp (k v)) -> psp (pseq p k).
Proof.
  intros H Hk. induction H as [v|u p H IH|f HR H IH]; cbn [pseq]; [apply Hk|constructor; auto|].
  apply psp_both. intros s s' labs p' E. destruct (f s) as [[[s1 l1] p1]|] eqn:Ef; [|discriminate].
  injection E as <- <- <-. split; [eapply HR; eauto|eapply IH; eauto].
Qed.

Lemma inc_ep s e s' : inc_ref s e = Ok s' -> k_ep s' = k_ep s.
Proof. unfold inc_ref. intros H. binv H. destruct x as [[sig n] p]. destruct (p =? 0); [now injection H as <-|]. binv H. now injection H as <-. Qed.
Lemma post_ep lifo s o e s' l : post_sec c lifo s o e = Ok (s', l) -> k_ep s' = k_ep s /\ forallb nopools l = true.
Proof.
  unfold post_sec. intros H. binv H. binv H. binv H. destruct x1 as [q g]. binv H. injection H as <- <-. cbn. split; [eapply inc_ep; eauto|reflexivity].
Qed.

Lemma ps_ae sz sig : psp (fwk_ae c sz sig).
Proof.
  apply psp_both. intros s s' labs p' H. binv H. binv H. binv H. injection H as <- <- <-.
  split; [now apply PS_same|]. apply psp_both. intros s1 s1' labs p' H. binv H. destruct x2 as [s2 evt].
  binv H. injection H as <- <- <-. unfold evtPool_get in E2. binv E2. destruct x1 as [j|]; [|discriminate].
  binv E2. binv E2. destruct x4 as [p b]. binv E2. injection E2 as <- <-.
  split; [|apply psp_both; intros s3 s3' labs p' H; binv H; injection H as <- <- <-; split; [now apply PS_same|constructor]].
  match goal with H : rd (k_ep s1) j = _ |- _ => rename H into Er end. match goal with H : mp_get _ _ _ _ = _ |- _ => rename H into Eg end.
  match goal with H : wr _ _ _ = _ |- _ => rename H into Ew end. match goal with H : rassert _ 144 _ = _ |- _ => rename H into Ea end.
  apply rd_ok in Er. unfold wr in Ew. destruct (_ <? _)%nat; [|discriminate]. injection Ew as <-. cbn [k_ep set_pools].
  intros i p0 Hp0. cbn [k_ep set_pools]. destruct (Nat.eq_dec j i) as [->|Hn].
  - exists p. rewrite nth_upd_eq by (eapply nth_some_lt; eauto). split; [reflexivity|].
    right. left. exists b. split; [reflexivity|]. match type of Er with _ = Some ?z => assert (p0 = z) by congruence; subst z end.
    unfold mp_get in Eg. binv Eg. cbv zeta in Eg. destruct (N.eqb_spec (mp_free p0) 0) as [Hz|Hz].
    + exfalso. injection Eg as <- <-. unfold rassert in Ea. rewrite Hasrt in Ea. discriminate.
    + binv Eg. binv Eg. injection Eg as <- <-. cbn [mp_nfree mp_nmin]. auto.
  - exists p0. rewrite nth_upd_ne by exact Hn. split; [exact Hp0|]. left. split; [|auto]. cbn. now rewrite (proj2 (Nat.eqb_neq i j)) by auto.
Qed.
Lemma ps_gc e : psp (fwk_gc c e).
Proof.
  apply psp_both. intros s s' labs p' H. binv H. destruct x as [[sig n] p]. injection H as <- <- <-.
  split; [now apply PS_same|]. destruct (n =? 0); [constructor|]. assert (He : e <> 0) by (intros ->; discriminate E).
  apply psp_both. intros s1 s1' labs p' H. binv H. destruct x as [[sig1 n1] p1]. destruct (1 <? n1).
  - binv H. injection H as <- <- <-. split; [now apply PS_same|constructor].
  - cbv zeta in H. binv H. binv H. injection H as <- <- <-.
    split; [apply PS_same; [reflexivity|now destruct x0]|].
    apply psp_both. intros s2 s2' labs p' H. binv H. injection H as <- <- <-. split; [|constructor]. unfold evtPool_put in E3. binv E3.
    destruct x0 as [j|]; [|discriminate]. binv E3. binv E3. destruct x3 as [q m]. binv E3. injection E3 as <-.
    match goal with H : mp_put _ _ _ _ _ = _ |- _ => rename H into Ep end. match goal with H : rd (k_ep s2) j = _ |- _ => rename H into Er end.
    match goal with H : wr _ _ _ = _ |- _ => rename H into Ew end.
    unfold mp_put in Ep. binv Ep. binv Ep. apply bind_inv in Ep. destruct Ep as [m1 _ Ep]. injection Ep as <- <-.
    apply rd_ok in Er. unfold wr in Ew. destruct (_ <? _)%nat; [|discriminate]. injection Ew as <-. cbn [k_ep set_pools].
    intros i p0 Hp0. cbn [k_ep set_pools]. destruct (Nat.eq_dec j i) as [->|Hn].
    + eexists. rewrite nth_upd_eq by (eapply nth_some_lt; eauto). split; [reflexivity|].
      right. right. exists e. split; [reflexivity|]. cbn [mp_free mp_nfree mp_nmin]. match type of Er with _ = Some ?z => assert (p0 = z) by congruence; subst z end. auto.
    + exists p0. rewrite nth_upd_ne by exact Hn. split; [exact Hp0|]. left. split; [|auto]. cbn. now rewrite (proj2 (Nat.eqb_neq i j)) by auto.
Qed.
Lemma ps_api op : psp (api c op).
Proof.
  destruct op; cbn [api]; [apply ps_ae|apply ps_gc|..].
  - apply psp_both. intros s s' labs p' H. binv H. injection H as <- <- <-. split; [apply PS_same; [eapply inc_ep; eauto|reflexivity]|constructor].
  - apply psp_both. intros s s' labs p' H. binv H. destruct x as [s1 l]. injection H as <- <- <-. apply post_ep in E. split; [now apply PS_same|constructor].
  - apply psp_both. intros s s' labs p' H. binv H. binv H. binv H. destruct x1 as [n [s1 l1]]. injection H as <- <- <-.
    split; [|apply (psp_pseq (fwk_gc c e) (fun _ => Ret n)); [apply ps_gc|constructor]].
    apply (trav_keep (fun w => k_ep (fst w) = k_ep s /\ forallb nopools (snd w) = true) _ _ _ _ _) in E1; [now apply PS_same| |].
    + intros p [s2 l2] w' [HP HL] H. unfold ps_cb in H. binv H. binv H. destruct x1 as [o|].
      * destruct (match sender with Some o' => _ | None => _ end); [injection H as <-; auto|].
        binv H. destruct x1 as [s3 l3]. injection H as <-. match goal with H : post_sec _ _ _ _ _ = _ |- _ => apply post_ep in H; destruct H as [P1 P2] end.
        cbn [fst snd] in *. rewrite forallb_app, HL, P2. split; [congruence|reflexivity].
      * destruct sender; [discriminate|]. injection H as <-. auto.
    + cbn [fst snd]. split; [eapply inc_ep; eauto|reflexivity].
  - apply psp_both. intros s s' labs p' H. do 5 binv H. injection H as <- <- <-. split; [now apply PS_same|constructor].
  - apply psp_both. intros s s' labs p' H. do 5 binv H. injection H as <- <- <-. split; [now apply PS_same|constructor].
  - apply psp_both. intros s s' labs p' H. do 2 binv H. injection H as <- <- <-. split; [now apply PS_same|constructor].
  - apply psp_both. intros s s' labs p' H. binv H. binv H. binv H. destruct x1 as [q g]. binv H. injection H as <- <- <-.
    split; [apply PS_same; [cbn; eapply inc_ep; eauto|reflexivity]|constructor].
  - apply psp_both. intros s s' labs p' H. binv H. binv H. destruct x0 as [[q g] [e|]]; binv H; injection H as <- <- <-;
      (split; [now apply PS_same|]); [|constructor].
    apply psp_both. intros s1 s1' labs p' H. binv H. destruct x1 as [s2 l]. injection H as <- <- <-.
    match goal with H : post_sec _ _ _ _ _ = _ |- _ => apply post_ep in H end. split; [now apply PS_same|].
    apply psp_both. intros s3 s3' labs p' H. binv H. destruct x1 as [[sig n] p]. destruct (n =? 0).
    + injection H as <- <- <-. split; [now apply PS_same|constructor].
    + binv H. binv H. injection H as <- <- <-. split; [now apply PS_same|constructor].
  - apply psp_both. intros s s' labs p' H. binv H. binv H. binv H. injection H as <- <- <-. split; [now apply PS_same|].
    apply (psp_pseq (sma_register c o) (fun _ => User (UInit o) (Ret 0))); [|intros v; repeat constructor]. apply psp_both. intros s1 s1' labs p' H. binv H. binv H. binv H. injection H as <- <- <-.
    split; [now apply PS_same|]. apply psp_both. intros s2 s2' labs p' H. binv H. injection H as <- <- <-. split; [now apply PS_same|constructor].
  - apply psp_both. intros s s' labs p' H. binv H. destruct x as [s1 l1]. injection H as <- <- <-. split; [|constructor].
    assert (G : forall ps r s1 l1, fold_left (fun r pe => do (s, labs) <- r; do (s, l) <- post_sec c false s (fst pe) (snd pe); Ok (s, labs ++ l)) ps r = Ok (s1, l1) ->
      (forall s0 l0, r = Ok (s0, l0) -> k_ep s0 = k_ep s /\ forallb nopools l0 = true) -> k_ep s1 = k_ep s /\ forallb nopools l1 = true).
    { clear. induction ps as [|pe ps IH]; intros r s1 l1 H Hr; cbn [fold_left] in H; [eauto|].
      eapply IH; [exact H|]. intros s0 l0 E. binv E. destruct x as [s2 l2]. binv E. destruct x as [s3 l3]. injection E as <- <-.
      destruct (Hr s2 l2 E0) as [A B]. match goal with H : post_sec _ _ _ _ _ = _ |- _ => apply post_ep in H; destruct H as [P1 P2] end.
      rewrite forallb_app, B, P2. split; [congruence|reflexivity]. }
    destruct (G ps _ s1 l1 E) as [A B]; [intros s0 l0 H; injection H as <- <-; auto|]. now apply PS_same.
  - apply psp_both. intros s s' labs p' H. binv H. binv H. binv H. injection H as <- <- <-. split; [now apply PS_same|].
    apply psp_both. intros s2 s2' labs p' H. binv H. injection H as <- <- <-. split; [now apply PS_same|constructor].
Qed.
Lemma ps_sched : psp (sched_once c).
Proof.
  apply psp_both. intros s s' labs p' H. destruct (rg_isReady (k_rg s)).
  - binv H. binv H. injection H as <- <- <-. split; [apply PS_same; [reflexivity|now destruct x0]|].
    destruct x0 as [o|]; [|apply psp_both; discriminate]. apply psp_both. intros s1 s1' labs p' H.
    binv H. binv H. destruct x1 as [[q g] e]. binv H. binv H. injection H as <- <- <-.
    split; [now apply PS_same|]. constructor. apply ps_gc.
  - injection H as <- <- <-. split; [now apply PS_same|]. repeat constructor.
Qed.
End P.

(** ** The counters and the log *)
Section Q.
Context (c : kcfg) (mem0 : @mem cell) (statics : list (N * N)) (prios : list N)
  (dqs : list (list (option N) * nat)) (pools : list (N * N * N)) (rs : list N).
Context (SO : sys_ok c mem0 statics prios dqs pools rs).
Notation PB := (pool_lists pools rs).
Notation reachable := (reachable c mem0 statics prios dqs pools).
Notation RI := (reach_inv c mem0 statics prios dqs pools rs SO).
Notation Hasrt := (so_asrt _ _ _ _ _ _ _ SO).

Definition psps (stk : list frame) : Prop := Forall (fun f => psp c (f_p f)) stk.
Lemma ps_cases x ch x' : psps (c_stk x) -> cstep c statics x ch = Ok x' ->
  psps (c_stk x') /\ exists labs m, c_log x' = c_log x ++ map EL labs ++ m /\ (forall y, In y m -> exists u, y = EU u) /\ PS c (c_s x) labs (c_s x').
Proof.
  intros Hp H. assert (Hsame : forall y, c_s y = c_s x -> c_log y = c_log x ->
    exists labs m, c_log y = c_log x ++ map EL labs ++ m /\ (forall y, In y m -> exists u, y = EU u) /\ PS c (c_s x) labs (c_s y)).
  { intros y E1 E2. exists [], []. rewrite E1, E2. cbn. rewrite app_nil_r. split; [reflexivity|]. split; [intros ? []|now apply PS_same]. }
  assert (Huser : forall p y, In y (user_of p) -> exists u, y = EU u).
  { intros [| |u k] y Hy; cbn in Hy; try tauto. destruct Hy as [<-|[]]. eauto. }
  destruct x as [s l stk log]. cbn [c_s c_stk c_log] in *. destruct ch as [|op|]; cbn [cstep c_stk c_s c_led c_log] in H.
  - destruct stk as [|[isr led p] stk]; [injection H as <-; auto|]. cbn [f_p f_led f_isr] in H. inversion Hp as [|? ? H1 H2]; subst. cbn [f_p] in H1.
    destruct p as [v|f|u k].
    + destruct stk as [|g stk]; injection H as <-; (split; [|now apply Hsame]); cbn [c_stk]; [|exact H2].
      constructor; [cbn [f_p]; apply ps_sched|constructor].
    + destruct (f s) as [[[s' labs] p']|] eqn:Ef; [|discriminate].
      match type of H with (if ?b then _ else _) = _ => destruct b end; injection H as <-; [split; [exact Hp|now apply Hsame]|].
      inversion H1 as [| |f' HR HP]; subst. cbn [c_stk c_log c_s]. split; [constructor; [eapply HP; eauto|exact H2]|].
      exists labs, (user_of p'). split; [reflexivity|]. split; [apply Huser|eapply HR; eauto].
    + injection H as <-. cbn [c_stk c_log c_s]. inversion H1; subst. split; [now constructor|].
      exists [], (user_of k). split; [reflexivity|]. split; [apply Huser|now apply PS_same].
  - destruct stk as [|top stk]; [injection H as <-; auto|].
    destruct (f_p top) as [v|f|u k] eqn:Ep; try (injection H as <-; split; [exact Hp|now apply Hsame]).
    destruct (grab c statics s l _ (f_isr top) op) as [[mine l']|] eqn:Eg; injection H as <-; (split; [|now apply Hsame]); [|exact Hp].
    constructor; [cbn [f_p]; apply ps_api, Hasrt|exact Hp].
  - injection H as <-. split; [|now apply Hsame]. constructor; [cbn [f_p]; repeat constructor|exact Hp].
Qed.

Lemma boot_min ps : forall s s', boot c s ps = Ok s' -> Forall (fun p => mp_nmin p = mp_nfree p) (k_ep s) -> Forall (fun p => mp_nmin p = mp_nfree p) (k_ep s').
Proof.
  induction ps as [|[[a n] b] ps IH]; intros s s' H Hm; cbn [boot] in H; [now injection H as <-|].
  binv H. apply (IH _ _ H). clear IH H. unfold fwk_registerEvtPool in E. binv E. binv E. destruct x1 as [s1 ep].
  binv E. binv E. injection E as <-. cbn [k_ep set_pools].
  match goal with H : evtPool_getPool _ _ _ _ _ = _ |- _ => rename H into Eg end. unfold evtPool_getPool in Eg.
  destruct (find_unused (k_ep s) 0); [|injection Eg as <- _; exact Hm].
  apply bind_inv in Eg. destruct Eg as [[q m] Ei Eg]. binv Eg. injection Eg as <- _. cbn [k_ep set_pools].
  match goal with H : wr (k_ep s) _ _ = _ |- _ => rename H into Ew end.
  unfold wr in Ew. destruct (_ <? _)%nat; [|discriminate]. injection Ew as <-.
  apply Forall_forall. intros p Hp. apply In_nth_error in Hp. destruct Hp as [j Hj]. destruct (Nat.eq_dec n0 j) as [->|Hn].
  - destruct (Nat.lt_ge_cases j (length (k_ep s))).
    + rewrite nth_upd_eq in Hj by assumption. injection Hj as <-. unfold mp_init in Ei. binv Ei. apply bind_inv in Ei. destruct Ei as [[rb st] _ Ei]. binv Ei. cbv zeta in Ei.
      apply bind_inv in Ei. destruct Ei as [[[m1 fb] cn] _ Ei]. binv Ei. now injection Ei as <- <-.
    + apply nth_some_lt in Hj. rewrite length_upd in Hj. lia.
  - rewrite nth_upd_ne in Hj by exact Hn. apply nth_error_In in Hj. rewrite Forall_forall in Hm. auto.
Qed.

Lemma pl_users i m r : (forall y, In y m -> exists u, y = EU u) -> fold_left (pl_step i) m r = r.
Proof. revert r. induction m as [|y m IH]; intros r H; [reflexivity|]. cbn [fold_left]. destruct (H y (or_introl eq_refl)) as [u ->].
  replace (pl_step i r (EU u)) with r by (destruct r as [[]|]; reflexivity). apply IH. intros z Hz. apply H. now right. Qed.
Lemma pl_none i labs r : forallb (nopool i) labs = true -> fold_left (pl_step i) (map EL labs) r = r.
Proof.
  revert r. induction labs as [|y m IH]; intros r H; [reflexivity|]. cbn [forallb map fold_left] in *. apply andb_true_iff in H. destruct H as [H1 H2].
  replace (pl_step i r (EL y)) with r; [now apply IH|]. destruct r as [[f n]|]; [|reflexivity].
  destruct y; try reflexivity; cbn in H1; cbn; apply negb_true_iff in H1; now rewrite H1.
Qed.
Lemma pool_inv x i q : reachable x -> (i < length pools)%nat -> nth_error (k_ep (c_s x)) i = Some q ->
  mp_nfree q <= mp_nblocks q /\ mp_nblocks q < nb_mod (k_mp c) /\ (mp_free q <> 0 -> 0 < mp_nfree q) /\ (mp_free q = 0 -> mp_nfree q = 0).
Proof.
  intros H Hi Hq. assert (Hl : (i < length PB)%nat).
  { unfold pool_lists. rewrite map_length, combine_length, (so_len _ _ _ _ _ _ _ SO). lia. }
  destruct (nth_error PB i) as [B|] eqn:EB; [|apply nth_error_None in EB; lia].
  destruct (km_pool _ _ _ _ _ _ _ _ _ _ (ki_mem _ _ _ _ _ _ _ _ _ (ci_k _ _ _ _ _ _ _ _ (RI x H))) i B EB) as (p & ow & Hp & Hv & _).
  assert (p = q) by congruence. subst p. pose proof (mp_inv_count _ _ _ _ _ _ Hv) as Hc. destruct Hv. destruct iv_fl as (fl & Hch & _ & Hf).
  split; [lia|]. split; [lia|]. rewrite Hf. split; intros Hz.
  - destruct fl as [|b fl]; [|cbn [length]; lia]. inversion Hch; congruence.
  - inversion Hch; subst; [reflexivity|congruence].
Qed.

Definition pstat (x : conf) : Prop := forall i q, (i < length pools)%nat -> nth_error (k_ep (c_s x)) i = Some q ->
  fold_left (pl_step i) (c_log x) (Some (mp_nblocks q, mp_nblocks q)) = Some (mp_nfree q, mp_nmin q).
Lemma reach_stat x : reachable x -> psps (c_stk x) /\ pstat x.
Proof.
  revert x. apply (reach_ind c mem0 statics prios dqs pools (fun x => psps (c_stk x) /\ pstat x)).
  - intros s Es. split; [repeat constructor|]. intros i q Hi Hq. cbn [conf0 c_log c_s fold_left] in *.
    assert (Hr : reachable (conf0 s)) by (exists s, []; auto).
    assert (Hf : mp_nfree q = mp_nblocks q).
    { apply (drained c mem0 statics prios dqs pools rs SO (conf0 s) i q Hr); [|intros y []|exact Hi|exact Hq].
      intros e He. exfalso. destruct (start_ok c mem0 statics prios dqs pools rs SO) as (s' & Es' & _ & _ & Hqs).
      assert (s' = s) by congruence. subst s'. cbn [conf0 c_s] in He. rewrite Hqs in He. destruct He. }
    assert (Hm : Forall (fun p => mp_nmin p = mp_nfree p) (k_ep s)).
    { eapply boot_min; [exact Es|]. cbn [kst0 k_ep]. apply Forall_forall. intros p Hp. apply repeat_spec in Hp. now subst p. }
    rewrite Forall_forall in Hm. rewrite (Hm q (nth_error_In _ _ Hq)), Hf. reflexivity.
  - intros x ch x' H [IH1 IH2] E. pose proof (reach_step _ _ _ _ _ _ _ _ _ H E) as H'.
    destruct (ps_cases x ch x' IH1 E) as (HP & labs & m & El & Hm & HS). split; [exact HP|].
    intros i q' Hi Hq'. assert (Hx : exists q, nth_error (k_ep (c_s x)) i = Some q /\ mp_nblocks q = mp_nblocks q').
    { destruct (nth_error pools i) as [p|] eqn:Ep; [|apply nth_error_None in Ep; lia].
      destruct (nth_error rs i) as [r|] eqn:Er; [|apply nth_error_None in Er; rewrite (so_len _ _ _ _ _ _ _ SO) in Er; lia].
      destruct (no_leak c mem0 statics prios dqs pools rs SO x i p r H Ep Er) as (q & Hq & _ & Hn & _).
      destruct (no_leak c mem0 statics prios dqs pools rs SO x' i p r H' Ep Er) as (q2 & Hq2 & _ & Hn2 & _).
      exists q. split; [exact Hq|]. congruence. }
    destruct Hx as (q & Hq & Hnb). rewrite <- Hnb, El, !fold_left_app, (IH2 i q Hi Hq), pl_users by exact Hm.
    destruct (HS i q Hq) as (p' & Hp' & HC). assert (p' = q') by congruence. subst p'.
    destruct (pool_inv x i q H Hi Hq) as (I1 & I2 & I3 & I4). destruct (pool_inv x' i q' H' Hi Hq') as (J1 & J2 & J3 & J4).
    destruct HC as [(Hn & -> & ->)|[(b & -> & Hz & Hf & ->)|(b & -> & Hz & Hf & ->)]].
    + now rewrite pl_none.
    + cbn [map fold_left pl_step]. rewrite Nat.eqb_refl. specialize (I3 Hz). destruct (N.eqb_spec (mp_nfree q) 0); [lia|].
      assert (Ef : mp_nfree q' = mp_nfree q - 1).
      { rewrite Hf. replace (mp_nfree q + nb_mod (k_mp c) - 1) with ((mp_nfree q - 1) + 1 * nb_mod (k_mp c)) by lia.
        rewrite N.mod_add by lia. apply N.mod_small. lia. }
      rewrite Ef. f_equal. f_equal. destruct (N.ltb_spec (mp_nfree q - 1) (mp_nmin q)); lia.
    + cbn [map fold_left pl_step]. rewrite Nat.eqb_refl. f_equal. f_equal. rewrite Hf. symmetry. apply N.mod_small.
      specialize (J3 Hz). destruct (N.eq_dec (mp_nfree q + 1) (nb_mod (k_mp c))) as [Ee|]; [|lia].
      rewrite Hf, Ee, N.mod_same in J3 by lia. lia.
Qed.

Lemma pl_spec i n log : forall f m, fold_left (pl_step i) log (Some (n, n)) = Some (f, m) ->
  f + taken i log = n + given i log /\ f = free_then n i log /\
  (forall pre post, log = pre ++ post -> m <= free_then n i pre) /\
  (exists pre post, log = pre ++ post /\ m = free_then n i pre).
Proof.
  induction log as [|x log IH] using rev_ind; intros f m H.
  - cbn in H. injection H as <- <-. split; [reflexivity|]. split; [cbn; unfold free_then; cbn; lia|]. split.
    + intros pre post E. symmetry in E. apply app_eq_nil in E. destruct E as [-> ->]. unfold free_then. cbn. lia.
    + exists [], []. split; [reflexivity|]. unfold free_then. cbn. lia.
  - rewrite fold_left_app in H. cbn [fold_left] in H.
    destruct (fold_left (pl_step i) log (Some (n, n))) as [[f0 m0]|] eqn:E0; [|discriminate].
    destruct (IH f0 m0 eq_refl) as (H1 & H2 & H3 & H4).
    assert (Hx : f + taken i (log ++ [x]) = n + given i (log ++ [x]) /\ m = N.min m0 f).
    { assert (Hm0 : m0 <= f0) by (rewrite H2; apply (H3 log []); now rewrite app_nil_r).
      unfold taken, given in *. rewrite !filter_app, !app_length.
      destruct x as [x|u]; [|cbn in *; injection H as <- <-; lia]. destruct x; cbn [pl_step filter] in *; try (injection H as <- <-; cbn [length]; lia).
      - destruct (Nat.eqb i i0); [|injection H as <- <-; cbn [length]; lia]. destruct (N.eqb_spec f0 0); [discriminate|]. injection H as <- <-. cbn [length]. lia.
      - destruct (Nat.eqb i i0); injection H as <- <-; cbn [length]; lia. }
    destruct Hx as [Hx Hm]. assert (Hf : f = free_then n i (log ++ [x])) by (unfold free_then; lia).
    split; [exact Hx|]. split; [exact Hf|]. split.
    + intros pre post E. destruct post as [|y post] using rev_ind; [rewrite app_nil_r in E; subst pre; lia|]. clear IHpost.
      rewrite app_assoc in E. apply app_inj_tail in E. destruct E as [E ->]. specialize (H3 _ _ E). lia.
    + destruct (N.min_spec m0 f) as [[_ Em]|[_ Em]]; rewrite Em in Hm.
      * destruct H4 as (pre & post & E & Hp). exists pre, (post ++ [x]). rewrite E, <- app_assoc. split; [reflexivity|congruence].
      * exists (log ++ [x]), []. rewrite app_nil_r. split; [reflexivity|congruence].
Qed.
Lemma filter_split {A} (f : A -> bool) l : (length (filter f l) + length (filter (fun a => negb (f a)) l) = length l)%nat.
Proof. induction l as [|a l IH]; [reflexivity|]. cbn [filter]. destruct (f a); cbn [negb length]; lia. Qed.

Lemma pool_stats x i p r : reachable x -> nth_error pools i = Some p -> nth_error rs i = Some r ->
  let s := c_s x in let n := N.of_nat (length (pool_blocks p r)) in
  evtPool_getNumBlock s i = Ok (u8 n) /\
  evtPool_getNumUsed c s i = Ok (u8 (N.of_nat (length (filter (fun a => negb (unused s (led_all x) i a)) (pool_blocks p r))))) /\
  free_then n i (c_log x) = N.of_nat (length (filter (unused s (led_all x) i) (pool_blocks p r))) /\
  exists m, evtPool_getNumMin s i = Ok (u8 m) /\
    (forall pre post, c_log x = pre ++ post -> m <= free_then n i pre) /\
    (exists pre post, c_log x = pre ++ post /\ m = free_then n i pre).
Proof.
  intros H Hp Hr s n. destruct (no_leak c mem0 statics prios dqs pools rs SO x i p r H Hp Hr) as (q & Hq & _ & Hn & Hf & _).
  assert (Hi : (i < length pools)%nat) by (eapply nth_some_lt; eauto).
  destruct (reach_stat x H) as [_ HS]. specialize (HS i q Hi Hq). fold s in Hn, Hf, Hq, HS. rewrite Hn in HS. fold n in HS, Hn.
  destruct (pl_spec i n (c_log x) _ _ HS) as (P1 & P2 & P3 & P4). destruct (pool_inv x i q H Hi Hq) as (I1 & I2 & _).
  unfold evtPool_getNumBlock, evtPool_getNumUsed, evtPool_getNumMin. rewrite (proj2 (rd_ok _ _ _) Hq). cbn [bind]. rewrite Hn.
  split; [reflexivity|]. split.
  - f_equal. pose proof (filter_split (unused s (led_all x) i) (pool_blocks p r)) as Hs.
    replace (n + 256 * nb_mod (k_mp c) - mp_nfree q) with (N.of_nat (length (filter (fun a => negb (unused s (led_all x) i a)) (pool_blocks p r))) + nb_mod (k_mp c) * 256) by lia.
    unfold u8. now rewrite N.mod_add by lia.
  - split; [congruence|]. exists (mp_nmin q). auto.
Qed.
Lemma register_limit s a n b : start c mem0 prios dqs pools = Ok s -> length pools = k_maxpool c ->
  fwk_registerEvtPool c s a n b = Fault (FAssert 162).
Proof.
  intros Es Hl. destruct (start_ok c mem0 statics prios dqs pools rs SO) as (s' & Es' & HI & _). assert (s' = s) by congruence. subst s'.
  unfold fwk_registerEvtPool. rewrite (ki_next _ _ _ _ _ _ _ _ _ HI). unfold pool_lists. rewrite map_length, combine_length, (so_len _ _ _ _ _ _ _ SO), Nat.min_id, Hl.
  destruct (N.leb_spec (N.of_nat (k_maxpool c) + 1) (N.of_nat (k_maxpool c))); [lia|]. unfold rassert. rewrite Hasrt. reflexivity.
Qed.
End Q.
