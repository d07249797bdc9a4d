(** Proofs: the trace records of the kernel. *)
From Verif Require Import Base L_Base M_RdyGrp S_RdyGrp L_RdyGrp M_Queue S_Queue M_MemPool S_MemPool L_MemPool M_Kernel S_Kernel
  L_KMem L_KQueue L_Kernel L_KRun L_KBoot L_KProps L_KSeq L_App S_KStat L_KStat M_KTrc S_KTrc.
From Coq Require Import Permutation.
Local Open Scope N_scope.

(** Labels that change what is allocated or counted. *)
Definition acct (x : klab) : bool := match x with KAlloc _ _ | KStamp _ _ | KDec _ | KDead _ _ | KFree _ _ => true | _ => false end.
Definition noacct (x : klab) : bool := negb (acct x).
Definition gets (labs : list klab) : list (nat * N) := concat (map (fun x => match x with KGet o e => [(o, e)] | _ => [] end) labs).
Definition hits (f : klab -> bool) (labs : list klab) : nat := length (filter f labs).

Section K.
Context (c : kcfg) (statics : list (N * N)) (PB : list (list N)) (m0 : @mem cell) (RS : list N) (prios : list N) (nd : nat).
Context (OK : pb_ok c statics PB) (Hasrt : q_asrt (k_qc c) = true).
Notation KInv := (KInv c statics PB m0 RS prios nd).
Notation bnd := (bnd statics).

Definition pays (s : kst) (led : list litem) (env : litem -> nat) (labs : list klab) (s' : kst) : Prop :=
  forallb noacct labs = true \/
  match labs with
  | [KAlloc _ _] => True
  | [KStamp i a] => In (LRaw i a) led
  | [KDec e] => In (LRef e) led /\ ~ stat statics e /\ (2 <= tot s (Lc led env) e)%nat /\ all_queued s' = all_queued s
  | [KDead i e] => In (LRef e) led /\ ~ stat statics e /\ s' = s
  | [KFree i e] => In (LDead i e) led
  | _ => False
  end.
Inductive paid : prog -> list litem -> Prop :=
| paid_ret v led : paid (Ret v) led
| paid_user u k led : user_of k = [] -> paid k led -> paid (User u k) led
| paid_atom f led :
    (forall s env, KInv s (Lc led env) -> bnd s (Lc led env) -> forall s' labs p', f s = Ok (s', labs, p') ->
       (pays s led env labs s' /\ gets labs = dispatches (user_of p')) /\ paid p' (fold_left led_step labs led)) ->
    paid (Atom f) led.
Lemma paid_both f led : (forall s env, KInv s (Lc led env) -> bnd s (Lc led env) -> forall s' labs p', f s = Ok (s', labs, p') ->
  forallb noacct labs = true /\ gets labs = dispatches (user_of p') /\ paid p' (fold_left led_step labs led)) -> paid (Atom f) led.
Proof. intros H. constructor. intros s env HI Hb s' labs p' E. destruct (H s env HI Hb s' labs p' E) as (A & B & C). split; [split; [now left|exact B]|exact C]. Qed.
Lemma paid_pseq v0 : forall p led, paid p led -> paid (pseq p (fun _ => Ret v0)) led.
Proof.
  fix IH 3. intros p l0 H. destruct H as [v l1|u k l1 Hu H|f l1 H]; cbn [pseq]; [constructor| |].
  - constructor; [rewrite user_pseq; destruct k; auto|apply IH; exact H].
  - constructor. intros s env HI Hb s' labs p' E. destruct (f s) as [[[s1 l2] p1]|] eqn:Ef; [|discriminate].
    injection E as E1 E2 E3. subst s' labs p'. destruct (H s env HI Hb s1 l2 p1 Ef) as [[A B] C]. split; [split; [exact A|]|apply IH; exact C].
    rewrite B, user_pseq. destruct p1; reflexivity.
Qed.

Lemma gc2_paid e led : In (LRef e) led -> ~ stat statics e ->
  paid (Atom (fun s =>
      do (sig, nref, pool) <- hdr_rd (k_mem s) e;
      if 1 <? nref then
        do m <- hdr_wr (k_mem s) e sig (nref - 1) pool;
        Ok (set_mem s m, [KDec e], Ret 0)
      else
        let idx := u8 (pool + 255) in
        do! rassert (q_asrt (k_qc c)) 105 (idx <? k_next s);
        do ep <- rd (k_mgr s) (N.to_nat idx);
        Ok (s, match ep with Some j => [KDead j e] | None => [] end, Atom (fun s =>
          do s <- evtPool_put c s ep e;
          Ok (s, match ep with Some j => [KFree j e] | None => [] end, Ret 0))))) led.
Proof.
  intros Hi Hns. constructor. intros s env HI Hb s' labs p' H. binv H. destruct x as [[sig n] p].
  assert (Hpos : (0 < tot s (Lc led env) e)%nat) by (apply cnt_in in Hi; unfold tot, Lc; lia).
  destruct (km_T _ _ _ _ _ _ _ _ _ _ (ki_mem _ _ _ _ _ _ _ _ _ HI) e Hpos) as [Hst|[i Hin]]; [contradiction|].
  destruct (KM_hdr c statics PB m0 OK _ _ _ _ _ _ e (ki_mem _ _ _ _ _ _ _ _ _ HI)) as (_ & H2 & _).
  destruct (H2 i Hin Hpos) as [sig' E']. rewrite E' in E. injection E as _ En _. specialize (Hb e Hns). rewrite u8_small in En by lia.
  destruct (N.ltb_spec 1 n) as [Hn|Hn].
  - binv H. injection H as <- <- <-. split; [split; [right; cbn [pays]; repeat split; auto; lia|reflexivity]|constructor].
  - cbv zeta in H. binv H. binv H. injection H as <- <- <-. destruct x0 as [j|].
    + split; [split; [right; auto|reflexivity]|]. cbn [fold_left led_step]. constructor. intros s1 env1 _ _ s1' labs p' H. binv H. injection H as <- <- <-.
      split; [split; [right; now left|reflexivity]|constructor].
    + split; [split; [now left|reflexivity]|]. constructor. intros s1 env1 _ _ s1' labs p' H. binv H.
      unfold evtPool_put in E1. binv E1. discriminate.
Qed.
Lemma gc_paid e led : stat statics e \/ In (LFresh e) led \/ In (LRef e) led -> paid (fwk_gc c e) led.
Proof.
  intros Hh. apply paid_both. intros s env HI Hb s' labs p' H. binv H. destruct x as [[sig n] p]. injection H as <- <- <-.
  split; [reflexivity|]. cbn [fold_left]. destruct (N.eqb_spec n 0) as [->|Hn]; [split; [reflexivity|constructor]|]. split; [reflexivity|].
  destruct (KM_hdr c statics PB m0 OK _ _ _ _ _ _ e (ki_mem _ _ _ _ _ _ _ _ _ HI)) as (H1 & _ & H3).
  assert (Hns : ~ stat statics e). { intros Hst. destruct (H1 Hst) as [sig' E']. congruence. }
  apply gc2_paid; [|exact Hns]. destruct Hh as [Hh|[Hh|Hh]]; [contradiction| |exact Hh].
  destruct H3 as (i & sig' & _ & E'). { apply cnt_in in Hh. unfold Lc. lia. } congruence.
Qed.
Lemma ae_paid sz sig led : paid (fwk_ae c sz sig) led.
Proof.
  apply paid_both. intros s env _ _ s' labs p' H. binv H. binv H. binv H. injection H as <- <- <-.
  split; [reflexivity|]. split; [reflexivity|]. cbn [fold_left]. constructor. intros s1 env1 _ _ s1' labs p' H. binv H. destruct x2 as [s2 evt].
  binv H. injection H as <- <- <-. destruct x1 as [j|]; [|unfold evtPool_get in E2; binv E2; discriminate].
  split; [split; [now right|reflexivity]|]. cbn [fold_left led_step]. constructor. intros s3 env3 _ _ s3' labs p' H. binv H. injection H as <- <- <-.
  split; [split; [right; now left|reflexivity]|constructor].
Qed.

(** Sections that only post. *)
Definition posting (x : klab) : bool := match x with KPut _ _ _ => true | _ => false end.
Lemma posting_gets l : forallb posting l = true -> forallb noacct l = true /\ gets l = [].
Proof.
  induction l as [|x l IH]; [auto|]. cbn [forallb]. intros H. apply andb_true_iff in H. destruct H as [H1 H2]. destruct (IH H2) as [A B].
  destruct x; try discriminate. cbn [forallb]. rewrite A. unfold gets in *. cbn [map concat]. rewrite B. auto.
Qed.
Lemma post_posting lifo s o e s' l : post_sec c lifo s o e = Ok (s', l) -> l = [KPut lifo o e].
Proof. unfold post_sec. intros H. binv H. binv H. binv H. destruct x1 as [q g]. binv H. now injection H as _ <-. Qed.
Lemma ref_posting e l led : forallb posting l = true -> In (LRef e) led -> In (LRef e) (fold_left led_step l led).
Proof.
  revert led. induction l as [|x l IH]; intros led H Hi; [exact Hi|]. cbn [forallb fold_left] in *. apply andb_true_iff in H. destruct H as [H1 H2].
  apply IH; [exact H2|]. destruct x; try discriminate. cbn [led_step]. right. apply in_rem1_ne; [congruence|exact Hi].
Qed.

(** ** All calls and the scheduler *)
Lemma api_paid op led : (forall e, op = OGc e -> stat statics e \/ In (LFresh e) led \/ In (LRef e) led) -> paid (api c op) led.
Proof.
  intros Hgc. destruct op as [esize sig|e|e|lifo o e|ch e sender|ch o|ch o|o|d e|o d|o qs n|ps|o]; cbn [api].
  - apply ae_paid.
  - apply gc_paid. now apply Hgc.
  - apply paid_both. intros s env _ _ s' labs p' H. binv H. injection H as <- <- <-. repeat split. constructor.
  - apply paid_both. intros s env _ _ s' labs p' H. binv H. destruct x as [s1 l]. injection H as <- <- <-. apply post_posting in E. subst l. repeat split. constructor.
  - apply paid_both. intros s env _ _ s' labs p' H. binv H. binv H. binv H. destruct x1 as [n [s1 l1]]. injection H as <- <- <-.
    assert (G : exists l, l1 = KInc e :: l /\ forallb posting l = true).
    { apply (trav_keep (fun w => exists l, snd w = KInc e :: l /\ forallb posting l = true) _ _ _ _ _) in E1; [exact E1| |exists []; auto].
      intros p [s2 l2] w' (l & El & Hl) H. cbn [snd] in El. subst l2. unfold ps_cb in H. binv H. binv H. destruct x1 as [o|].
      - destruct (match sender with Some o' => _ | None => _ end); [injection H as <-; exists l; auto|].
        binv H. destruct x1 as [s3 l3]. injection H as <-. match goal with H : post_sec _ _ _ _ _ = _ |- _ => apply post_posting in H; subst l3 end.
        exists (l ++ [KPut false o e]). split; [reflexivity|]. now rewrite forallb_app, Hl.
      - destruct sender; [discriminate|]. injection H as <-. exists l. auto. }
    destruct G as (l & -> & Hl). destruct (posting_gets l Hl) as [A B].
    split; [exact A|]. split; [exact B|].
    apply (paid_pseq n (fwk_gc c e)), gc_paid. right. right. cbn [fold_left]. apply ref_posting; [exact Hl|]. now left.
  - apply paid_both. intros s env _ _ s' labs p' H. do 5 binv H. injection H as <- <- <-. repeat split. constructor.
  - apply paid_both. intros s env _ _ s' labs p' H. do 5 binv H. injection H as <- <- <-. repeat split. constructor.
  - apply paid_both. intros s env _ _ s' labs p' H. do 2 binv H. injection H as <- <- <-. repeat split. constructor.
  - apply paid_both. intros s env _ _ s' labs p' H. binv H. binv H. binv H. destruct x1 as [q g]. binv H. injection H as <- <- <-. repeat split. constructor.
  - apply paid_both. intros s env _ _ s' labs p' H. binv H. binv H. destruct x0 as [[q g] [e|]]; binv H; injection H as <- <- <-; (split; [reflexivity|]; split; [reflexivity|]); [|constructor].
    cbn [fold_left led_step]. apply paid_both. intros s1 env1 _ _ s1' labs p' H. binv H. destruct x1 as [s2 l]. injection H as <- <- <-.
    match goal with H : post_sec _ _ _ _ _ = _ |- _ => apply post_posting in H; subst l end. split; [reflexivity|]. split; [reflexivity|]. cbn [fold_left].
    match goal with |- paid _ ?l => assert (Hi : In (LRef e) l) by (cbn [led_step]; right; apply in_rem1_ne; [congruence|now left]); generalize dependent l end.
    intros led1 Hi. constructor. intros s3 env3 HI Hb s3' labs p' H. binv H. destruct x1 as [[sig n] p]. destruct (N.eqb_spec n 0) as [|Hn].
    + injection H as <- <- <-. split; [split; [now left|reflexivity]|constructor].
    + apply bind_inv in H. destruct H as [u Ea H]. binv H. injection H as <- <- <-. split; [split; [right|reflexivity]|constructor].
      destruct (KM_hdr c statics PB m0 OK _ _ _ _ _ _ e (ki_mem _ _ _ _ _ _ _ _ _ HI)) as (H1 & H2 & _).
      match goal with H : hdr_rd _ _ = _ |- _ => rename H into Eh end.
      assert (Hns : ~ stat statics e). { intros Hst. destruct (H1 Hst) as [sig' E']. congruence. }
      assert (Hpos : (0 < tot s3 (Lc led1 env3) e)%nat) by (apply cnt_in in Hi; unfold tot, Lc; lia).
      destruct (km_T _ _ _ _ _ _ _ _ _ _ (ki_mem _ _ _ _ _ _ _ _ _ HI) e Hpos) as [Hst|[i Hin]]; [contradiction|].
      destruct (H2 i Hin Hpos) as [sig' E']. rewrite E' in Eh. injection Eh as _ En _. specialize (Hb e Hns). rewrite u8_small in En by lia.
      split; [exact Hi|]. split; [exact Hns|]. split; [|reflexivity].
      unfold rassert in Ea. rewrite Hasrt in Ea. destruct (N.ltb_spec 1 n); [lia|discriminate].
  - apply paid_both. intros s env _ _ s' labs p' H. binv H. binv H. binv H. injection H as <- <- <-. split; [reflexivity|]. split; [reflexivity|].
    unfold sma_register. cbn [pseq]. apply paid_both. intros s1 env1 _ _ s1' labs p' H.
    match type of H with match ?r with _ => _ end = _ => destruct r as [[[s2 l2] p2]|] eqn:E2; [|discriminate] end. injection H as <- <- <-.
    binv E2. binv E2. binv E2. injection E2 as <- <- <-. split; [reflexivity|]. split; [reflexivity|]. cbn [pseq fold_left].
    apply paid_both. intros s3 env3 _ _ s3' labs p' H. match type of H with match ?r with _ => _ end = _ => destruct r as [[[s4 l4] p4]|] eqn:EZ; [|discriminate] end.
    injection H as <- <- <-. binv EZ. injection EZ as <- <- <-. split; [reflexivity|]. split; [reflexivity|]. constructor; [reflexivity|constructor].
  - apply paid_both. intros s env _ _ s' labs p' H. binv H. destruct x as [s1 l1]. injection H as <- <- <-.
    assert (G : forall ps r s1 l1, fold_left (fun r pe => do (s, labs) <- r; do (s, l) <- post_sec c false s (fst pe) (snd pe); Ok (s, labs ++ l)) ps r = Ok (s1, l1) ->
      (forall s0 l0, r = Ok (s0, l0) -> forallb posting l0 = true) -> forallb posting l1 = true).
    { clear. induction ps as [|pe ps IH]; intros r s1 l1 H Hr; cbn [fold_left] in H; [eauto|].
      eapply IH; [exact H|]. intros s0 l0 E. binv E. destruct x as [s2 l2]. binv E. destruct x as [s3 l3]. injection E as <- <-.
      specialize (Hr s2 l2 E0). match goal with H : post_sec _ _ _ _ _ = _ |- _ => apply post_posting in H; subst l3 end.
      now rewrite forallb_app, Hr. }
    specialize (G ps _ s1 l1 E). assert (Hl : forallb posting l1 = true) by (apply G; intros s0 l0 H; injection H as _ <-; reflexivity).
    destruct (posting_gets l1 Hl) as [A B]. split; [exact A|]. split; [exact B|constructor].
  - apply paid_both. intros s env _ _ s' labs p' H. binv H. binv H. binv H. injection H as <- <- <-. split; [reflexivity|]. split; [reflexivity|].
    apply paid_both. intros s1 env1 _ _ s1' labs p' H. binv H. injection H as <- <- <-. split; [reflexivity|]. split; [reflexivity|]. constructor.
Qed.
Lemma sched_paid : paid (sched_once c) [].
Proof.
  apply paid_both. intros s env _ _ s' labs p' H. destruct (rg_isReady (k_rg s)).
  - binv H. binv H. injection H as <- <- <-. destruct x0 as [o|]; (split; [reflexivity|]; split; [reflexivity|]).
    2:{ apply paid_both. discriminate. }
    apply paid_both. intros s1 env1 _ _ s1' labs p' H. binv H. binv H. destruct x1 as [[q g] e]. binv H. binv H. injection H as <- <- <-.
    split; [reflexivity|]. split; [reflexivity|]. constructor; [reflexivity|]. apply gc_paid. right. right. now left.
  - injection H as <- <- <-. repeat split. constructor; [reflexivity|constructor].
Qed.
End K.

(** ** Counting in ledgers and logs *)
Definition hitsl (f : litem -> bool) (l : list litem) : nat := length (filter f l).
Definition rawi (i : nat) (x : litem) : bool := match x with LRaw j _ => Nat.eqb i j | _ => false end.
Definition deadi (i : nat) (x : litem) : bool := match x with LDead j _ => Nat.eqb i j | _ => false end.
Lemma hitsl_app f l1 l2 : hitsl f (l1 ++ l2) = (hitsl f l1 + hitsl f l2)%nat.
Proof. unfold hitsl. now rewrite filter_app, app_length. Qed.
Lemma hitsl_cons f x l : hitsl f (x :: l) = ((if f x then 1 else 0) + hitsl f l)%nat.
Proof. unfold hitsl. cbn [filter]. destruct (f x); reflexivity. Qed.
Lemma hitsl_rem1 f x l : In x l -> (hitsl f (rem1 x l) + (if f x then 1 else 0) = hitsl f l)%nat.
Proof.
  induction l as [|y l IH]; [intros []|]. intros Hi. cbn [rem1]. rewrite hitsl_cons. destruct (litem_dec x y) as [->|Hn]; [lia|].
  rewrite hitsl_cons. destruct Hi as [<-|Hi]; [congruence|]. specialize (IH Hi). lia.
Qed.
Lemma hitsl_rem0 f x l : f x = false -> hitsl f (rem1 x l) = hitsl f l.
Proof.
  intros Hf. induction l as [|y l IH]; [reflexivity|]. cbn [rem1]. rewrite hitsl_cons. destruct (litem_dec x y) as [<-|Hn]; [rewrite Hf; reflexivity|].
  rewrite hitsl_cons, IH. reflexivity.
Qed.
Lemma hitsl_keep f (P : litem -> bool) l : (forall y, f y = true -> P y = true) -> hitsl f (filter P l) = hitsl f l.
Proof.
  intros H. induction l as [|y l IH]; [reflexivity|]. cbn [filter]. destruct (P y) eqn:E; rewrite ?hitsl_cons, IH; [reflexivity|].
  destruct (f y) eqn:Ef; [rewrite (H y Ef) in E; discriminate|reflexivity].
Qed.
Definition moving (f : litem -> bool) : Prop := exists i, f = rawi i \/ f = deadi i.
Lemma moving_not f : moving f -> (forall a, f (LFresh a) = false) /\ (forall a, f (LRef a) = false) /\
  (forall y, f y = true -> is_right y = true) /\ (forall y, is_right y = false -> f y = false).
Proof. intros [i [-> | ->]]; (split; [reflexivity|]; split; [reflexivity|]; split; intros []; cbn; congruence). Qed.
Lemma hitsl_labs f labs : moving f -> forallb noacct labs = true -> forall led, hitsl f (fold_left led_step labs led) = hitsl f led.
Proof.
  intros Hm. destruct (moving_not f Hm) as (F1 & F2 & F3 & F4). induction labs as [|x labs IH]; intros H led; [reflexivity|].
  cbn [forallb fold_left] in *. apply andb_true_iff in H. destruct H as [H1 H2]. rewrite (IH H2).
  destruct x; try discriminate; cbn [led_step]; rewrite ?hitsl_cons, ?F1, ?F2, ?(F4 (LLive _)), ?(F4 (LSel _)), ?(F4 (LActd _)) by reflexivity; cbn [Nat.add].
  all: first [reflexivity | now rewrite hitsl_rem0 | apply hitsl_keep; exact F3
             | apply hitsl_keep; intros y Hy; specialize (F3 y Hy); destruct y; try discriminate; reflexivity].
Qed.
Lemma underway_split i l : underway i l = (hitsl (rawi i) l + hitsl (deadi i) l)%nat.
Proof.
  unfold underway, hitsl. induction l as [|y l IH]; [reflexivity|]. cbn [filter]. destruct y; cbn [rawi deadi]; try exact IH; destruct (Nat.eqb i i0); cbn [length]; lia.
Qed.
Lemma recs_app f l1 l2 : recs f (l1 ++ l2) = (recs f l1 + recs f l2)%nat.
Proof. unfold recs. now rewrite filter_app, app_length. Qed.
Lemma recs_labs f labs : recs f (map EL labs) = hits f labs.
Proof. unfold recs, hits. induction labs as [|x t IH]; [reflexivity|]. cbn [map filter]. destruct (f x); cbn [length]; lia. Qed.
Lemma recs_user f us : (forall y, In y us -> exists u, y = EU u) -> recs f us = 0%nat.
Proof.
  intros H. induction us as [|y us IH]; [reflexivity|]. unfold recs in *. cbn [filter]. destruct (H y (or_introl eq_refl)) as [u ->]. apply IH. intros z Hz. apply H. now right.
Qed.
Lemma user_of_EU p y : In y (user_of p) -> exists u, y = EU u.
Proof. destruct p as [| |u k]; cbn; [tauto|tauto|]. intros [<-|[]]. eauto. Qed.
Lemma dispatches_app l1 l2 : dispatches (l1 ++ l2) = dispatches l1 ++ dispatches l2.
Proof. unfold dispatches. now rewrite map_app, concat_app. Qed.
Lemma dispatches_labs labs : dispatches (map EL labs) = [].
Proof. induction labs as [|x t IH]; [reflexivity|exact IH]. Qed.
Definition log_gets (log : list entry) : list (nat * N) := concat (map (fun x => match x with EL (KGet o e) => [(o, e)] | _ => [] end) log).
Lemma log_gets_app l1 l2 : log_gets (l1 ++ l2) = log_gets l1 ++ log_gets l2.
Proof. unfold log_gets. now rewrite map_app, concat_app. Qed.
Lemma log_gets_labs labs : log_gets (map EL labs) = gets labs.
Proof. unfold log_gets, gets. now rewrite map_map. Qed.
Lemma log_gets_user us : (forall y, In y us -> exists u, y = EU u) -> log_gets us = [].
Proof.
  intros H. induction us as [|y us IH]; [reflexivity|]. unfold log_gets in *. cbn [map concat]. destruct (H y (or_introl eq_refl)) as [u ->]. apply IH. intros z Hz. apply H. now right.
Qed.
Definition is_alloc (i : nat) (l : klab) : bool := match l with KAlloc j _ => Nat.eqb i j | _ => false end.
Definition is_free (i : nat) (l : klab) : bool := match l with KFree j _ => Nat.eqb i j | _ => false end.
Lemma hits_noacct i labs : forallb noacct labs = true ->
  hits (is_alloc i) labs = 0%nat /\ hits (is_ae i) labs = 0%nat /\ hits (is_gcr i) labs = 0%nat /\ hits (is_free i) labs = 0%nat.
Proof.
  unfold hits. induction labs as [|x t IH]; [auto|]. cbn [forallb filter]. intros H. apply andb_true_iff in H. destruct H as [H1 H2]. destruct (IH H2) as (A & B & C & D).
  destruct x; try discriminate; auto.
Qed.

Section Q.
Context (c : kcfg) (mem0 : @mem cell) (statics : list (N * N)) (prios : list N)
  (dqs : list (list (option N) * nat)) (pools : list (N * N * N)) (rs : list N).
Context (SO : sys_ok c mem0 statics prios dqs pools rs).
Notation PB := (pool_lists pools rs).
Notation KInv := (KInv c statics PB mem0 rs prios (length dqs)).
Notation reachable := (reachable c mem0 statics prios dqs pools).
Notation RI := (reach_inv c mem0 statics prios dqs pools rs SO).
Notation Hasrt := (so_asrt _ _ _ _ _ _ _ SO).
Notation OK := (OK c mem0 statics prios dqs pools rs SO).
Notation paid := (paid c statics PB mem0 rs prios (length dqs)).
Definition paids (stk : list frame) : Prop := Forall (fun f => paid (f_p f) (f_led f)) stk.

(** What one step adds to the log. *)
Lemma go_cases x ch x' : reachable x -> paids (c_stk x) -> cstep c statics x ch = Ok x' -> paids (c_stk x') /\
  ((exists us, c_log x' = c_log x ++ us /\ dispatches us = [] /\ (forall y, In y us -> exists u, y = EU u) /\ c_s x' = c_s x /\
      forall f, moving f -> hitsl f (led_all x') = hitsl f (led_all x)) \/
   (exists labs p' led rest, c_log x' = c_log x ++ map EL labs ++ user_of p' /\
      led_all x = led ++ rest /\ led_all x' = fold_left led_step labs led ++ rest /\
      pays statics (c_s x) led (cnt rest) labs (c_s x') /\ gets labs = dispatches (user_of p'))).
Proof.
  intros HR Hp H. assert (Hsame : paids (c_stk x) -> paids (c_stk x) /\ ((exists us, c_log x = c_log x ++ us /\ dispatches us = [] /\ (forall y, In y us -> exists u, y = EU u) /\ c_s x = c_s x /\
      forall f, moving f -> hitsl f (led_all x) = hitsl f (led_all x)) \/
   (exists labs p' led rest, c_log x = c_log x ++ map EL labs ++ user_of p' /\
      led_all x = led ++ rest /\ led_all x = fold_left led_step labs led ++ rest /\
      pays statics (c_s x) led (cnt rest) labs (c_s x) /\ gets labs = dispatches (user_of p')))).
  { intros Hq. split; [exact Hq|]. left. exists []. rewrite app_nil_r. repeat split. intros y []. }
  pose proof (RI x HR) as HC. pose proof (ci_k _ _ _ _ _ _ _ _ HC) as HK. pose proof (ci_b _ _ _ _ _ _ _ _ HC) as HB.
  destruct x as [s l stk log]. cbn [c_s c_stk c_log] in *. destruct ch as [|op|]; cbn [cstep c_stk c_s c_led c_log] in H.
  - destruct stk as [|[isr led p] stk]; [injection H as <-; auto|]. cbn [f_p f_led f_isr] in H. inversion Hp as [|? ? H1 H2]; subst. cbn [f_p f_led] in H1.
    destruct p as [v|f|u k].
    + assert (G : forall stk', concat (map f_led stk') = concat (map f_led stk) ->
        forall g, moving g -> hitsl g (led_all (mkC s (filter (fun y => is_right y && negb (match y with LRef e => is_static statics e | _ => false end)) led ++ l) stk' log)) =
          hitsl g (led_all (mkC s l (mkF isr led (Ret v) :: stk) log))).
      { intros stk' Es g Hg. unfold led_all. cbn [c_stk c_led map concat f_led]. rewrite Es, !hitsl_app, hitsl_keep; [lia|].
        intros y Hy. destruct Hg as [i [-> | ->]]; destruct y; try discriminate; reflexivity. }
      destruct stk as [|g stk]; injection H as <-; cbn [c_stk c_log c_s].
      * split; [constructor; [apply (sched_paid c statics PB mem0 rs prios (length dqs) OK Hasrt)|constructor]|].
        left. exists []. rewrite app_nil_r. split; [reflexivity|]. split; [reflexivity|]. split; [intros y []|]. split; [reflexivity|]. apply G. reflexivity.
      * split; [exact H2|]. left. exists []. rewrite app_nil_r. split; [reflexivity|]. split; [reflexivity|]. split; [intros y []|]. split; [reflexivity|]. apply G. reflexivity.
    + destruct (f s) as [[[s' labs] p']|] eqn:Ef; [|discriminate].
      match type of H with (if ?b then _ else _) = _ => destruct b end; injection H as <-; [auto|].
      inversion H1 as [| |f' l' HR']; subst. cbn [c_stk c_log c_s].
      set (rest := concat (map f_led stk) ++ l).
      assert (EL0 : led_all (mkC s l (mkF isr led (Atom f) :: stk) log) = led ++ rest) by (unfold led_all, rest; cbn [c_stk c_led map concat f_led]; now rewrite app_assoc).
      rewrite EL0 in HK, HB.
      destruct (HR' s (cnt rest)) with (s' := s') (labs := labs) (p' := p') as [[A B] C]; [| |exact Ef|].
      * eapply KInv_ext; [|exact HK]. intros y _. unfold Lc. now rewrite cnt_app.
      * intros a Ha. specialize (HB a Ha). unfold tot, Lc in *. now rewrite cnt_app in HB.
      * split; [constructor; [exact C|exact H2]|]. right. exists labs, p', led, rest. split; [reflexivity|]. split; [exact EL0|].
        split; [unfold led_all, rest; cbn [c_stk c_led map concat f_led]; now rewrite app_assoc|]. auto.
    + injection H as <-. cbn [c_stk c_log c_s]. inversion H1; subst. split; [now constructor|].
      left. exists (user_of k). split; [reflexivity|]. match goal with H : user_of k = [] |- _ => rewrite H end. repeat split. intros y [].
  - destruct stk as [|top stk]; [injection H as <-; auto|].
    destruct (f_p top) as [v|f|u k] eqn:Ep; try (injection H as <-; auto).
    destruct (grab c statics s l _ (f_isr top) op) as [[mine l']|] eqn:Eg; injection H as <-; [|auto].
    assert (G : (forall e, op = OGc e -> stat statics e \/ In (LFresh e) mine \/ In (LRef e) mine) /\ forall g, moving g -> (hitsl g mine + hitsl g l' = hitsl g l)%nat).
    { unfold grab in Eg. destruct (op_ok c statics s (f_isr top) op) as [ev0|] eqn:Eo; [|discriminate].
      assert (Hev : forall g, moving g -> hitsl g ev0 = 0%nat).
      { intros g Hg. destruct (moving_not g Hg) as (_ & _ & _ & F4). assert (Hx := op_ok_ev c statics PB mem0 rs prios (length dqs)). specialize (Hx (so_max _ _ _ _ _ _ _ SO) s _ (f_isr top) op ev0 HK Eo).
        clear - Hx F4. induction ev0 as [|y t IH]; [reflexivity|]. rewrite hitsl_cons, F4 by (apply Hx; now left). cbn. apply IH. intros z Hz. apply Hx. now right. }
      destruct (op_evt op) as [e|] eqn:Ee.
      - destruct (grab_evt statics s l _ (is_gc op) e) as [[m1 l1]|] eqn:Eg1; [|discriminate]. injection Eg as <- <-. split.
        + intros e0 ->. cbn in Ee. injection Ee as <-. destruct (grab_evt_holds c statics (so_max _ _ _ _ _ _ _ SO) Hasrt _ _ _ _ _ _ _ Eg1) as (_ & X & _). specialize (X eq_refl). rewrite !in_app_iff. tauto.
        + intros g Hg. rewrite hitsl_app, (Hev g Hg), Nat.add_0_r. destruct (moving_not g Hg) as (F1 & F2 & _ & F4).
          unfold grab_evt in Eg1. destruct (is_static statics e); [injection Eg1 as <- <-; reflexivity|].
          destruct (has l (LFresh e)); [injection Eg1 as <- <-; rewrite hitsl_cons, F1, hitsl_rem0 by auto; reflexivity|].
          destruct (has l (LRef e)); [injection Eg1 as <- <-; rewrite hitsl_cons, F2, hitsl_rem0 by auto; reflexivity|].
          destruct (is_gc op); [discriminate|]. destruct (_ || _); [|discriminate]. injection Eg1 as <- <-. rewrite hitsl_cons, F4 by reflexivity. reflexivity.
      - injection Eg as <- <-. split; [intros e0 ->; discriminate|]. intros g Hg. rewrite (Hev g Hg). reflexivity. }
    destruct G as [G1 G2]. cbn [c_stk c_log c_s]. split.
    + constructor; [cbn [f_p f_led]; apply (api_paid c statics PB mem0 rs prios (length dqs) OK Hasrt); exact G1|exact Hp].
    + left. exists []. rewrite app_nil_r. split; [reflexivity|]. split; [reflexivity|]. split; [intros y []|]. split; [reflexivity|].
      intros g Hg. unfold led_all. cbn [c_stk c_led map concat f_led]. rewrite !hitsl_app. specialize (G2 g Hg). lia.
  - injection H as <-. cbn [c_stk c_log c_s]. split; [constructor; [cbn [f_p f_led]; constructor; [reflexivity|constructor]|exact Hp]|].
    left. exists []. rewrite app_nil_r. repeat split. intros y [].
Qed.

Record TInv (x : conf) : Prop := {
  ti_paid : paids (c_stk x);
  ti_gets : log_gets (c_log x) = dispatches (c_log x);
  ti_raw : forall i, recs (is_alloc i) (c_log x) = (recs (is_ae i) (c_log x) + hitsl (rawi i) (led_all x))%nat;
  ti_dead : forall i, recs (is_gcr i) (c_log x) = (recs (is_free i) (c_log x) + hitsl (deadi i) (led_all x))%nat }.
Lemma reach_trc x : reachable x -> TInv x.
Proof.
  revert x. apply (reach_ind c mem0 statics prios dqs pools TInv).
  - intros s _. constructor; try reflexivity. constructor; [|constructor]. constructor; [reflexivity|constructor].
  - intros x ch x' H [I1 I2 I3 I4] E. destruct (go_cases x ch x' H I1 E) as [HP [(us & El & Ed & Hu & _ & Hm)|(labs & p' & led & rest & El & E1 & E2 & Hpay & Hg)]].
    + constructor; [exact HP| | |]; rewrite El.
      * rewrite log_gets_app, dispatches_app, Ed, (log_gets_user us), I2 by exact Hu. reflexivity.
      * intros i. rewrite !recs_app, !(recs_user _ us), Hm by (auto; exists i; auto). rewrite I3. lia.
      * intros i. rewrite !recs_app, !(recs_user _ us), Hm by (auto; exists i; auto). rewrite I4. lia.
    + assert (Hu := user_of_EU p'). constructor; [exact HP| | |]; rewrite El.
      * rewrite !log_gets_app, !dispatches_app, log_gets_labs, dispatches_labs, (log_gets_user (user_of p')), I2, Hg by exact Hu. now rewrite app_nil_r.
      * intros i. rewrite !recs_app, !recs_labs, !(recs_user _ (user_of p')), I3, E1, E2, !hitsl_app by exact Hu.
        destruct Hpay as [Hn|Hpay].
        { destruct (hits_noacct i labs Hn) as (A & B & _ & _). rewrite A, B, hitsl_labs by (auto; exists i; auto). lia. }
        destruct labs as [|lab [|]]; try contradiction; [|destruct lab; contradiction].
        destruct lab; try contradiction; cbn [fold_left led_step hits filter is_alloc is_ae length]; rewrite ?hitsl_cons; cbn [rawi].
        -- unfold hits. cbn [filter is_alloc is_ae]. destruct (Nat.eqb i i0); cbn [length]; lia.
        -- pose proof (hitsl_rem1 (rawi i) _ _ Hpay) as Hx. cbn [rawi] in Hx. unfold hits. cbn [filter is_alloc is_ae]. destruct (Nat.eqb i i0); cbn [length]; lia.
        -- unfold hits. cbn [filter is_alloc is_ae length]. rewrite hitsl_rem0 by reflexivity. lia.
        -- unfold hits. cbn [filter is_alloc is_ae length]. rewrite hitsl_rem0 by reflexivity. lia.
        -- unfold hits. cbn [filter is_alloc is_ae length]. rewrite hitsl_rem0 by reflexivity. lia.
      * intros i. rewrite !recs_app, !recs_labs, !(recs_user _ (user_of p')), I4, E1, E2, !hitsl_app by exact Hu.
        destruct Hpay as [Hn|Hpay].
        { destruct (hits_noacct i labs Hn) as (_ & _ & A & B). rewrite A, B, hitsl_labs by (auto; exists i; auto). lia. }
        destruct labs as [|lab [|]]; try contradiction; [|destruct lab; contradiction].
        destruct lab; try contradiction; cbn [fold_left led_step]; rewrite ?hitsl_cons; cbn [deadi]; unfold hits; cbn [filter is_gcr is_free].
        -- cbn [length]. lia.
        -- cbn [length]. rewrite hitsl_rem0 by reflexivity. lia.
        -- cbn [length]. rewrite hitsl_rem0 by reflexivity. lia.
        -- rewrite hitsl_rem0 by reflexivity. destruct (Nat.eqb i i0); cbn [length]; lia.
        -- pose proof (hitsl_rem1 (deadi i) _ _ Hpay) as Hx. cbn [deadi] in Hx. destruct (Nat.eqb i i0); cbn [length]; lia.
Qed.

(** ** What can be counted in the trace *)
Lemma recs_taken i log : taken i log = N.of_nat (recs (is_alloc i) log).
Proof. unfold taken, recs. reflexivity. Qed.
Lemma recs_given i log : given i log = N.of_nat (recs (is_free i) log).
Proof. unfold given, recs. reflexivity. Qed.
Lemma pool_truth x i p r : reachable x -> nth_error pools i = Some p -> nth_error rs i = Some r ->
  exists q, nth_error (k_ep (c_s x)) i = Some q /\
    mp_nfree q = N.of_nat (length (filter (unused (c_s x) (led_all x) i) (pool_blocks p r))) /\
    lowest (N.of_nat (length (pool_blocks p r))) i (c_log x) (mp_nmin q) /\
    mp_nfree q + taken i (c_log x) = N.of_nat (length (pool_blocks p r)) + given i (c_log x) /\
    N.of_nat (length (pool_blocks p r)) < nb_mod (k_mp c).
Proof.
  intros H Hp Hr. destruct (no_leak c mem0 statics prios dqs pools rs SO x i p r H Hp Hr) as (q & Hq & _ & Hn & Hf & _).
  assert (Hi : (i < length pools)%nat) by (eapply nth_some_lt; eauto).
  destruct (reach_stat c mem0 statics prios dqs pools rs SO x H) as [_ HS]. specialize (HS i q Hi Hq). rewrite Hn in HS.
  destruct (pl_spec i _ (c_log x) _ _ HS) as (P1 & P2 & P3 & P4).
  destruct (pool_inv c mem0 statics prios dqs pools rs SO x i q H Hi Hq) as (I1 & I2 & _).
  exists q. split; [exact Hq|]. split; [exact Hf|]. split; [split; assumption|]. split; [exact P1|]. congruence.
Qed.
Lemma leak_count x i p r : reachable x -> nth_error pools i = Some p -> nth_error rs i = Some r ->
  (in_use (c_s x) (led_all x) i (pool_blocks p r) + recs (is_gcr i) (c_log x) =
   recs (is_ae i) (c_log x) + underway i (led_all x))%nat.
Proof.
  intros H Hp Hr. destruct (pool_truth x i p r H Hp Hr) as (q & Hq & Hf & _ & Ht & _).
  destruct (reach_trc x H) as [_ _ T1 T2]. specialize (T1 i). specialize (T2 i). rewrite recs_taken, recs_given in Ht.
  pose proof (filter_split (unused (c_s x) (led_all x) i) (pool_blocks p r)) as Hs. fold (in_use (c_s x) (led_all x) i (pool_blocks p r)) in Hs.
  rewrite underway_split. unfold in_use in *. lia.
Qed.
Lemma queue_count x o : reachable x -> (length (ao_view (c_s x) o) + recs (is_get o) (c_log x) = recs (is_post o) (c_log x))%nat.
Proof.
  intros H. pose proof (log_perm o _ _ (in_order c mem0 statics prios dqs pools rs SO x o H)) as Hp. apply Permutation_length in Hp. rewrite app_length in Hp.
  assert (E1 : length (accepted o (c_log x)) = recs (is_post o) (c_log x)).
  { unfold accepted, recs. generalize (c_log x). induction l as [|y l IH]; [reflexivity|]. cbn [map concat filter]. rewrite app_length, IH.
    destruct y as [[]|]; cbn [is_post]; try reflexivity. destruct (Nat.eqb o o0); reflexivity. }
  assert (E2 : length (dispatched o (c_log x)) = length (filter (fun oe => Nat.eqb o (fst oe)) (dispatches (c_log x)))).
  { unfold dispatched, dispatches. generalize (c_log x). induction l as [|y l IH]; [reflexivity|]. cbn [map concat]. rewrite filter_app, !app_length, IH.
    destruct y as [|[]]; try reflexivity. cbn [filter fst]. destruct (Nat.eqb o o0); reflexivity. }
  assert (E3 : recs (is_get o) (c_log x) = length (filter (fun oe => Nat.eqb o (fst oe)) (log_gets (c_log x)))).
  { unfold recs, log_gets. generalize (c_log x). induction l as [|y l IH]; [reflexivity|]. cbn [map concat filter]. rewrite filter_app, app_length, <- IH.
    destruct y as [[]|]; cbn [is_get]; try reflexivity. cbn [filter fst]. destruct (Nat.eqb o o0); reflexivity. }
  rewrite (ti_gets _ (reach_trc x H)) in E3. lia.
Qed.

(** ** The figures in the records *)

Lemma labs_split (labs labs' : list klab) us us' : (forall y, In y us -> exists u, y = EU u) -> (forall y, In y us' -> exists u, y = EU u) ->
  map EL labs ++ us = map EL labs' ++ us' -> labs = labs' /\ us = us'.
Proof.
  intros H H'. revert labs'. induction labs as [|a labs IH]; intros [|b labs'] E; cbn in E.
  - auto.
  - destruct (H (EL b)) as [u Eu]; [rewrite E; now left|discriminate].
  - destruct (H' (EL a)) as [u Eu]; [rewrite <- E; now left|discriminate].
  - injection E as -> E. destruct (IH _ E) as [-> ->]. auto.
Qed.
Lemma one_lab x ch x' us labs : reachable x -> cstep c statics x ch = Ok x' -> labs <> [] -> c_log x' = c_log x ++ map EL labs ++ us ->
  (forall y, In y us -> exists u, y = EU u) ->
  exists led rest, led_all x = led ++ rest /\ led_all x' = fold_left led_step labs led ++ rest /\
    pays statics (c_s x) led (cnt rest) labs (c_s x').
Proof.
  intros H E Hn El Hus. destruct (go_cases x ch x' H (ti_paid _ (reach_trc x H)) E) as [_ [(us' & El' & _ & Hu & _)|(labs' & p' & led & rest & El' & E1 & E2 & Hp & _)]].
  - exfalso. rewrite El in El'. apply app_inv_head in El'. destruct (labs_split labs [] us us' Hus Hu El'). congruence.
  - rewrite El in El'. apply app_inv_head in El'. destruct (labs_split labs labs' us (user_of p') Hus (user_of_EU p') El') as [-> _]. eauto.
Qed.

Notation shows x := (hdr_shows statics pools rs (c_s x) (led_all x)).
Lemma rd_hdr s l e sig nref pool : KInv s l -> stat statics e \/ (exists i, inpool PB i e) -> k_mem s e = Some (CEvt sig nref pool) ->
  hdr_rd (k_mem s) e = Ok (sig, nref, pool).
Proof.
  intros HI He Hm. apply hdr_rd_ok; [|exact Hm]. destruct He as [He|[i He]]; [eapply pb_snz|eapply pb_nz]; eauto; apply OK.
Qed.
Lemma held_hdr x e : reachable x -> (0 < holders (c_s x) (led_all x) e)%nat ->
  exists sig pool nref, hdr_rd (k_mem (c_s x)) e = Ok (sig, nref, pool) /\ shows x e sig pool nref.
Proof.
  intros H Hh. pose proof (ci_k _ _ _ _ _ _ _ _ (RI x H)) as HI.
  destruct (held_event c mem0 statics prios dqs pools rs _ _ e HI Hh) as [Hs|[i Hi]].
  - pose proof Hs as Hs'. rewrite is_static_stat in Hs'. destruct Hs' as [sig Hin].
    pose proof (km_stat _ _ _ _ _ _ _ _ _ _ (ki_mem _ _ _ _ _ _ _ _ _ HI) e sig Hin) as Hm.
    exists sig, 0, 0. split; [eapply rd_hdr; eauto; left; exists sig; auto|]. split; [exact Hm|]. left. auto.
  - destruct (refcount c mem0 statics prios dqs pools rs SO x H) as [R _]. destruct (R i e Hi Hh) as (Hle & sig & Hm).
    exists sig, (N.of_nat i + 1), (N.of_nat (holders (c_s x) (led_all x) e)). split.
    + eapply rd_hdr; eauto. right. exists i. now apply inpool_block.
    + split; [exact Hm|]. right. exists i. auto.
Qed.
Lemma que_len s o v : ao_view s o = v -> v <> [] \/ (o < length (k_ao s))%nat -> exists m, que_at s (QAo o) = Ok (N.of_nat (length v), m).
Proof.
  unfold ao_view, que_at. intros <-. destruct (nth_error (k_ao s) o) as [a|] eqn:Ea.
  - intros _. rewrite (proj2 (rd_ok _ _ _) Ea). cbn [bind]. rewrite q_view_length. eauto.
  - intros [Hn|Hn]; [now destruct Hn|]. apply nth_error_Some in Hn. congruence.
Qed.
Lemma dq_len s d v : dq_view s d = v -> v <> [] \/ (d < length (k_dq s))%nat -> exists m, que_at s (QDq d) = Ok (N.of_nat (length v), m).
Proof.
  unfold dq_view, que_at. intros <-. destruct (nth_error (k_dq s) d) as [a|] eqn:Ea.
  - intros _. rewrite (proj2 (rd_ok _ _ _) Ea). cbn [bind]. rewrite q_view_length. eauto.
  - intros [Hn|Hn]; [now destruct Hn|]. apply nth_error_Some in Hn. congruence.
Qed.
Lemma in_view_held s l o e : In e (ao_view s o) -> (0 < holders s l e)%nat.
Proof.
  intros H. unfold holders. assert (Hq : In e (all_queued s)).
  { apply in_all_queued. left. unfold ao_view in H. destruct (nth_error (k_ao s) o) as [a|] eqn:Ea; [|destruct H]. eauto. }
  apply (count_occ_In N.eq_dec) in Hq. lia.
Qed.

Lemma post_rec x log lifo o e : reachable x -> c_log x = log ++ [EL (KPut lifo o e)] ->
  exists sig pool nref nmin, let n := N.of_nat (length (ao_view (c_s x) o)) in
  sec_recs c (c_s x) (KPut lifo o e) = Ok [TQuePut lifo (QAo o) n nmin; TSmaPost lifo o sig pool nref n nmin] /\ 0 < n /\
  shows x e sig pool nref.
Proof.
  intros H El. pose proof (in_order c mem0 statics prios dqs pools rs SO x o H) as Hq. rewrite El, log_queue_snoc in Hq.
  destruct (log_queue o log) as [l|]; [|discriminate]. cbn [log_step] in Hq. rewrite Nat.eqb_refl in Hq. injection Hq as Hq.
  assert (Hin : In e (ao_view (c_s x) o)). { rewrite <- Hq. destruct lifo; [now left|]. apply in_app_iff. right. now left. }
  destruct (held_hdr x e H (in_view_held _ _ _ _ Hin)) as (sig & pool & nref & Hr & Hsh).
  destruct (que_len (c_s x) o _ eq_refl) as [m Hm]; [left; destruct (ao_view (c_s x) o); [destruct Hin|discriminate]|].
  exists sig, pool, nref, m. cbn [sec_recs]. unfold que_put_rec, sma_post_rec. rewrite Hm, Hr. cbn [bind].
  split; [reflexivity|]. split; [|exact Hsh]. destruct (ao_view (c_s x) o); [destruct Hin|cbn; lia].
Qed.
Lemma get_rec x ch x' o e : reachable x -> cstep c statics x ch = Ok x' -> c_log x' = c_log x ++ [EL (KGet o e); EU (UDispatch o e)] ->
  exists sig pool nref nmin, let n := N.of_nat (length (ao_view (c_s x') o)) in
  sec_recs c (c_s x') (KGet o e) = Ok [if n =? 0 then TQueGetLast (QAo o) else TQueGet (QAo o) n] /\
  sma_get_rec (c_s x') o e = Ok (TSmaGet o sig pool nref n nmin) /\
  ao_view (c_s x) o = e :: ao_view (c_s x') o /\ shows x' e sig pool nref.
Proof.
  intros H E El. pose proof (reach_step c mem0 statics prios dqs pools x ch x' H E) as H'.
  destruct (one_lab x ch x' [EU (UDispatch o e)] [KGet o e] H E) as (led & rest & E1 & E2 & _); [discriminate|exact El|intros y [<-|[]]; eauto|].
  assert (Hh : (0 < holders (c_s x') (led_all x') e)%nat).
  { unfold holders. rewrite E2. cbn [fold_left led_step]. rewrite cnt_app, cnt_cons. destruct (litem_dec (LRef e) (LRef e)); [lia|congruence]. }
  destruct (held_hdr x' e H' Hh) as (sig & pool & nref & Hr & Hsh).
  pose proof (in_order c mem0 statics prios dqs pools rs SO x o H) as Hq.
  pose proof (in_order c mem0 statics prios dqs pools rs SO x' o H') as Hq'.
  replace (c_log x') with ((c_log x ++ [EL (KGet o e)]) ++ [EU (UDispatch o e)]) in Hq' by (rewrite El, <- app_assoc; reflexivity).
  rewrite !log_queue_snoc, Hq in Hq'. cbn [log_step] in Hq'. rewrite Nat.eqb_refl in Hq'.
  destruct (ao_view (c_s x) o) as [|e0 t] eqn:Ev; [discriminate|]. destruct (e0 =? e) eqn:Ee; [|discriminate]. apply N.eqb_eq in Ee. subst e0. injection Hq' as Hq'.
  assert (Ho : (o < length (k_ao (c_s x')))%nat).
  { pose proof (reach_prios c mem0 statics prios dqs pools rs SO x H) as P. pose proof (reach_prios c mem0 statics prios dqs pools rs SO x' H') as P'.
    apply (f_equal (@length N)) in P, P'. rewrite map_length in P, P'. unfold ao_view in Ev. destruct (nth_error (k_ao (c_s x)) o) as [a|] eqn:Ea; [|discriminate].
    apply nth_some_lt in Ea. lia. }
  destruct (que_len (c_s x') o _ eq_refl (or_intror Ho)) as [m Hm].
  exists sig, pool, nref, m. cbn [sec_recs]. unfold que_get_rec, sma_get_rec. rewrite Hm, Hr. cbn [bind].
  split; [reflexivity|]. split; [reflexivity|]. split; [congruence|exact Hsh].
Qed.
Lemma defer_rec x d e : reachable x -> In e (dq_view (c_s x) d) ->
  exists sig pool nref nmin, let n := N.of_nat (length (dq_view (c_s x) d)) in
  sec_recs c (c_s x) (KDefer d e) = Ok [TQuePut false (QDq d) n nmin; TSmaDefer d sig] /\ shows x e sig pool nref.
Proof.
  intros H Hin. assert (Hh : (0 < holders (c_s x) (led_all x) e)%nat).
  { unfold holders. assert (Hq : In e (all_queued (c_s x))).
    { apply in_all_queued. right. unfold dq_view in Hin. destruct (nth_error (k_dq (c_s x)) d) as [a|] eqn:Ea; [|destruct Hin]. eauto. }
    apply (count_occ_In N.eq_dec) in Hq. lia. }
  destruct (held_hdr x e H Hh) as (sig & pool & nref & Hr & Hsh).
  destruct (dq_len (c_s x) d _ eq_refl) as [m Hm]; [left; destruct (dq_view (c_s x) d); [destruct Hin|discriminate]|].
  exists sig, pool, nref, m. cbn [sec_recs]. unfold que_put_rec, sma_defer_rec. rewrite Hm, Hr. cbn [bind]. auto.
Qed.
Lemma undefer_rec x d e : reachable x -> (d < length dqs)%nat ->
  sec_recs c (c_s x) (KUndefer d e) = Ok [TQueGet (QDq d) (N.of_nat (length (dq_view (c_s x) d)))].
Proof.
  intros H Hd. rewrite <- (kq_nd _ _ _ _ _ _ _ _ (ki_q _ _ _ _ _ _ _ _ _ (ci_k _ _ _ _ _ _ _ _ (RI x H)))) in Hd.
  destruct (dq_len (c_s x) d _ eq_refl (or_intror Hd)) as [m Hm]. cbn [sec_recs]. unfold que_get_rec. rewrite Hm. reflexivity.
Qed.

Lemma in_use_num x i p r : reachable x -> nth_error pools i = Some p -> nth_error rs i = Some r ->
  evtPool_getNumUsed c (c_s x) i = Ok (u8 (N.of_nat (in_use (c_s x) (led_all x) i (pool_blocks p r)))) /\
  exists m, lowest (N.of_nat (length (pool_blocks p r))) i (c_log x) m /\ evtPool_getNumMin (c_s x) i = Ok (u8 m).
Proof.
  intros H Hp Hr. destruct (pool_stats c mem0 statics prios dqs pools rs SO x i p r H Hp Hr) as (_ & H2 & _ & m & H4 & H5 & H6).
  split; [exact H2|]. exists m. split; [split; assumption|exact H4].
Qed.
Lemma alloc_rec x i p r a : reachable x -> nth_error pools i = Some p -> nth_error rs i = Some r ->
  exists nmin, lowest (N.of_nat (length (pool_blocks p r))) i (c_log x) nmin /\
  let nfree := N.of_nat (length (filter (unused (c_s x) (led_all x) i) (pool_blocks p r))) in
  sec_recs c (c_s x) (KAlloc i a) = Ok [TMpGet i nfree nmin] /\ sec_recs c (c_s x) (KFree i a) = Ok [TMpPut i nfree].
Proof.
  intros H Hp Hr. destruct (pool_truth x i p r H Hp Hr) as (q & Hq & Hf & Hl & _). exists (mp_nmin q). split; [exact Hl|].
  cbn [sec_recs]. unfold mp_get_rec, mp_put_rec. rewrite (proj2 (rd_ok _ _ _) Hq). cbn [bind]. rewrite Hf. auto.
Qed.
Lemma dec_rec x ch x' e : reachable x -> cstep c statics x ch = Ok x' -> c_log x' = c_log x ++ [EL (KDec e)] ->
  exists i sig, block_of pools rs i e /\
  sec_recs c (c_s x') (KDec e) = Ok [TFwkGc sig (N.of_nat i + 1) (N.of_nat (holders (c_s x') (led_all x') e))] /\
  holders (c_s x) (led_all x) e = S (holders (c_s x') (led_all x') e) /\ (0 < holders (c_s x') (led_all x') e)%nat.
Proof.
  intros H E El. pose proof (reach_step c mem0 statics prios dqs pools x ch x' H E) as H'.
  destruct (one_lab x ch x' [] [KDec e] H E) as (led & rest & E1 & E2 & [Hp|(Hin & Hst & Ht & Hq)]); [discriminate|exact El|intros y []|discriminate Hp|].
  assert (Hh : holders (c_s x) (led_all x) e = S (holders (c_s x') (led_all x') e) /\ (2 <= holders (c_s x) (led_all x) e)%nat).
  { unfold holders. rewrite E1, E2, Hq. cbn [fold_left led_step]. rewrite !cnt_app, cnt_rem1. apply cnt_in in Hin.
    destruct (litem_dec (LRef e) (LRef e)); [|congruence]. unfold tot, refs, Lc in Ht. lia. }
  destruct Hh as [Hh Hh2]. assert (Hh' : (0 < holders (c_s x') (led_all x') e)%nat) by lia.
  destruct (held_hdr x' e H' Hh') as (sig & pool & nref & Hr & _ & [(Hs & _)|(i & Hb & -> & -> & _)]).
  - exfalso. apply Hst. now apply is_static_stat.
  - exists i, sig. split; [exact Hb|]. cbn [sec_recs]. unfold fwk_gc_rec. rewrite Hr. cbn [bind]. auto.
Qed.
Lemma dead_rec x ch x' i e p r : reachable x -> cstep c statics x ch = Ok x' -> c_log x' = c_log x ++ [EL (KDead i e)] ->
  nth_error pools i = Some p -> nth_error rs i = Some r ->
  exists sig m, let n := in_use (c_s x') (led_all x') i (pool_blocks p r) in
  In e (pool_blocks p r) /\ holders (c_s x) (led_all x) e = 1%nat /\ holders (c_s x') (led_all x') e = 0%nat /\
  lowest (N.of_nat (length (pool_blocks p r))) i (c_log x') m /\ (0 < n)%nat /\
  sec_recs c (c_s x') (KDead i e) = Ok [TFwkGcr sig (N.of_nat i) 1 ((u8 (N.of_nat n) + nb_mod (k_mp c) - 1) mod nb_mod (k_mp c)) (u8 m)] /\
  ((n <= 255)%nat -> (u8 (N.of_nat n) + nb_mod (k_mp c) - 1) mod nb_mod (k_mp c) = N.of_nat n - 1).
Proof.
  intros H E El Hp Hr. pose proof (reach_step c mem0 statics prios dqs pools x ch x' H E) as H'.
  destruct (one_lab x ch x' [] [KDead i e] H E) as (led & rest & E1 & E2 & [Hp'|(Hin & Hst & Hs)]); [discriminate|exact El|intros y []|discriminate Hp'|].
  assert (HD : In (LDead i e) (led_all x')). { rewrite E2. cbn [fold_left led_step]. now left. }
  pose proof (ki_mem _ _ _ _ _ _ _ _ _ (ci_k _ _ _ _ _ _ _ _ (RI x' H'))) as HM.
  assert (Hi : inpool PB i e). { apply (km_D _ _ _ _ _ _ _ _ _ _ HM). now apply cnt_in. }
  destruct (KM_blk _ _ _ _ _ _ _ _ _ _ _ _ HM Hi) as (q & ow & B & HB & Ha & _ & _ & Hb).
  apply cnt_in in HD. assert (H0 : holders (c_s x') (led_all x') e = 0%nat).
  { rewrite <- tot_holders. unfold blk in Hb. destruct Hb as [Hb|(_ & [Hb|[(Hb & _)|[Hb|(Hb & _)]]])]; lia. }
  assert (Hh : holders (c_s x) (led_all x) e = S (holders (c_s x') (led_all x') e)).
  { unfold holders. rewrite E1, E2, Hs. cbn [fold_left led_step]. rewrite !cnt_app, cnt_cons, cnt_rem1. apply cnt_in in Hin.
    destruct (litem_dec (LRef e) (LRef e)); [|congruence]. destruct (litem_dec (LDead i e) (LRef e)); [congruence|]. lia. }
  rewrite H0 in Hh. assert (Hh1 : (0 < holders (c_s x) (led_all x) e)%nat) by lia.
  destruct (held_hdr x e H Hh1) as (sig & pool & nref & Hrd & _ & [(Hs1 & _)|(j & Hj & -> & -> & _)]); [exfalso; apply Hst; now apply is_static_stat|].
  assert (j = i). { eapply pb_one; [apply OK|apply inpool_block; exact Hj|exact Hi]. } subst j.
  destruct (in_use_num x' i p r H' Hp Hr) as (Hu & m & Hl & Hmin).
  assert (Hbl : In e (pool_blocks p r)). { destruct Hj as (p1 & r1 & A1 & A2 & A3). congruence. }
  assert (Hpos : (0 < in_use (c_s x') (led_all x') i (pool_blocks p r))%nat).
  { unfold in_use. assert (Hf : In e (filter (fun a => negb (unused (c_s x') (led_all x') i a)) (pool_blocks p r))).
    { apply filter_In. split; [exact Hbl|]. unfold unused. apply cnt_in in HD. apply has_in in HD. rewrite HD. cbn [negb]. now rewrite andb_false_r. }
    destruct (filter _ _); [destruct Hf|cbn; lia]. }
  exists sig, m. cbv zeta. split; [exact Hbl|]. split; [exact Hh|]. split; [exact H0|]. split; [exact Hl|]. split; [exact Hpos|]. split.
  - cbn [sec_recs]. unfold fwk_gcr_rec. rewrite Hs at 1. rewrite Hrd. cbn [bind]. rewrite Hu, Hmin. cbn [bind]. rewrite Hh.
    assert (Hlt : (i < length PB)%nat) by (eapply nth_some_lt; exact HB). pose proof (pb_len _ _ _ OK) as Hlen.
    replace (u8 (N.of_nat i + 1 + 255)) with (N.of_nat i); [reflexivity|]. unfold u8. apply (N.mod_unique _ _ 1); lia.
  - intros Hle. rewrite u8_small by lia. destruct (pool_truth x' i p r H' Hp Hr) as (q' & _ & Hf & _ & _ & Hnb).
    pose proof (filter_split (unused (c_s x') (led_all x') i) (pool_blocks p r)) as Hsp. unfold in_use in *.
    symmetry. apply (N.mod_unique _ _ 1); lia.
Qed.
Lemma ae_rec x ch x' i e p r esize : reachable x -> cstep c statics x ch = Ok x' -> c_log x' = c_log x ++ [EL (KStamp i e)] ->
  nth_error pools i = Some p -> nth_error rs i = Some r ->
  exists sig m, In e (pool_blocks p r) /\ holders (c_s x') (led_all x') e = 0%nat /\
  lowest (N.of_nat (length (pool_blocks p r))) i (c_log x') m /\
  fwk_ae_rec c (c_s x') esize i e = Ok (TFwkAe (esize mod k_es_mod c) sig (N.of_nat i) 0
    (u8 (N.of_nat (in_use (c_s x') (led_all x') i (pool_blocks p r)))) (u8 m)).
Proof.
  intros H E El Hp Hr. pose proof (reach_step c mem0 statics prios dqs pools x ch x' H E) as H'.
  destruct (one_lab x ch x' [] [KStamp i e] H E) as (led & rest & E1 & E2 & [Hp'|Hin]); [discriminate|exact El|intros y []|discriminate Hp'|].
  pose proof (ki_mem _ _ _ _ _ _ _ _ _ (ci_k _ _ _ _ _ _ _ _ (RI x H))) as HM.
  assert (Hi : inpool PB i e). { apply (km_W _ _ _ _ _ _ _ _ _ _ HM). rewrite E1, cnt_app. apply cnt_in in Hin. lia. }
  assert (HF : In (LFresh e) (led_all x')). { rewrite E2. cbn [fold_left led_step]. now left. }
  destruct (refcount c mem0 statics prios dqs pools rs SO x' H') as [_ R]. destruct (R e HF) as (H0 & _ & j & sig & Hj & Hm).
  assert (j = i). { eapply pb_one; [apply OK|apply inpool_block; exact Hj|exact Hi]. } subst j.
  destruct (in_use_num x' i p r H' Hp Hr) as (Hu & m & Hl & Hmin).
  exists sig, m. split; [destruct Hj as (p1 & r1 & A1 & A2 & A3); congruence|]. split; [exact H0|]. split; [exact Hl|].
  unfold fwk_ae_rec. rewrite (rd_hdr _ _ e sig 0 (N.of_nat i + 1) (ci_k _ _ _ _ _ _ _ _ (RI x' H'))); [|right; eauto|exact Hm]. cbn [bind]. rewrite Hu, Hmin. cbn [bind].
  destruct Hi as (B & HB & _). apply nth_some_lt in HB. pose proof (pb_len _ _ _ OK) as Hlen.
  replace (u8 (N.of_nat i + 1 + 255)) with (N.of_nat i); [reflexivity|]. unfold u8. apply (N.mod_unique _ _ 1); lia.
Qed.

Lemma inc_sig s e s' sig nref pool : inc_ref s e = Ok s' -> hdr_rd (k_mem s) e = Ok (sig, nref, pool) ->
  exists nref', k_mem s' e = Some (CEvt sig nref' pool).
Proof.
  unfold inc_ref. intros E Hr. rewrite Hr in E. cbn [bind] in E. pose proof (hdr_rd_inv _ _ _ _ _ Hr) as Hm.
  destruct (pool =? 0); [injection E as <-; eauto|]. destruct (hdr_wr (k_mem s) e sig (u8 (nref + 1)) pool) as [m'|] eqn:Ew; [|discriminate].
  injection E as <-. cbn [k_mem set_mem]. exists (u8 (nref + 1)). rewrite (hdr_wr_inv _ _ _ _ _ _ Ew e), N.eqb_refl. reflexivity.
Qed.
Lemma dyn_hdr s l i e : KInv s (cnt l) -> block_of pools rs i e -> (0 < holders s l e <= 255)%nat ->
  exists sig, hdr_rd (k_mem s) e = Ok (sig, N.of_nat (holders s l e), N.of_nat i + 1).
Proof.
  intros HI Hb Hh. apply (inpool_block pools rs) in Hb. destruct (KM_live _ _ _ _ _ _ _ _ _ _ i e (ki_mem _ _ _ _ _ _ _ _ _ HI) Hb) as (_ & sig & Em); [rewrite tot_holders; lia|].
  rewrite tot_holders, u8_small in Em by lia. exists sig. eapply rd_hdr; eauto.
Qed.
Lemma pub_recs_ext s s' sig pool : forall os n r, (forall o, In o os -> ao_view s o = ao_view s' o) -> pub_recs s sig pool n os r -> pub_recs s' sig pool n os r.
Proof.
  induction os as [|o os IH]; intros n r He; destruct r as [|[lifo [o1|] k m| | | | | | | | | |] r]; cbn [pub_recs]; auto.
  destruct lifo; auto. destruct r as [|[| | |lifo o2 sig' pool' n' k' m'| | | | | | |] r]; auto. destruct lifo; auto. rewrite (He o) by now left.
  intros (A1 & A2 & A3 & A4 & A5 & A6 & A7 & A8 & A9). repeat (split; [assumption|]). apply IH; [|exact A9]. intros o' Ho'. apply He. now right.
Qed.
Lemma publish_fold_trc e i sig sender : forall ps os s l rs0,
  KInv s (cnt l) -> In (LRef e) l -> block_of pools rs i e -> (forall p, In p ps -> p < 256) -> NoDup ps ->
  map (fun p => nth_error (k_sp s) (N.to_nat p)) ps = map (fun o => Some (Some o)) os ->
  (forall o, In o os -> is_sender sender o = false -> ao_room s o 1) ->
  (holders s l e + length (filter (fun o => negb (is_sender sender o)) os) <= 255)%nat ->
  (exists nref, hdr_rd (k_mem s) e = Ok (sig, nref, N.of_nat i + 1)) ->
  exists s' rs', cb_fold (ps_cb_trc c e sender) ps (s, rs0) = Ok (s', rs0 ++ rs') /\
    pub_recs s sig (N.of_nat i + 1) (N.of_nat (holders s l e)) (filter (fun o => negb (is_sender sender o)) os) rs'.
Proof.
  induction ps as [|p ps IH]; intros [|o os] s l rs0 HI Hi Hb Hp Hd E Hroom Hle Hsig; try discriminate; cbn [cb_fold].
  - exists s, []. rewrite app_nil_r. split; [reflexivity|exact I].
  - pose proof (NoDup_objs c mem0 statics prios dqs pools rs _ _ _ _ HI Hd E) as Hos. inversion Hos as [|? ? Hno Hos']; subst.
    inversion Hd as [|? ? Hnp Hd']; subst. cbn [map] in E. injection E as E1 E2.
    unfold ps_cb_trc at 1. rewrite u8_small by (apply Hp; now left). rewrite (proj2 (rd_ok _ _ _) E1). cbn [bind].
    rewrite rassert_true. cbn [bind].
    assert (Hh : (0 < holders s l e)%nat) by (apply cnt_in in Hi; unfold holders; lia).
    change (match sender with Some o' => Nat.eqb o o' | None => false end) with (is_sender sender o).
    destruct (is_sender sender o) eqn:Es; cbn [filter] in *; rewrite Es in *; cbn [bind negb] in *.
    + destruct (IH os s l rs0 HI Hi) as (s' & rs' & Ef & Hpub); auto.
      { intros p' Hp'. apply Hp. now right. }
      { intros o' Ho'. apply Hroom. now right. }
      exists s', rs'. auto.
    + destruct (Hroom o ltac:(now left) Es) as (a & Ho & Hlen).
      assert (Hreg : registered s o = true).
      { apply registered_reg. exists a. split; [exact Ho|]. unfold reg.
        destruct (kq_sp _ _ _ _ _ _ _ _ (ki_q _ _ _ _ _ _ _ _ _ HI) _ _ E1) as (a' & Ho' & Ep).
        assert (a' = a) by congruence. subst a'. congruence. }
      destruct (proj2 (post_call c mem0 statics prios dqs pools rs SO false s l o a e HI ltac:(right; right; exact Hh) Ho Hreg) ltac:(lia))
        as (s1 & Ep & HI1 & Hv1 & Hd1 & Hsp1 & _ & _ & _ & Hao1 & Hh1 & _ & Hinc).
      unfold after_post in *. rewrite rem1_notin in * by (eapply ref_not_fresh; eauto).
      rewrite Ep. cbn [bind]. cbn [length] in Hle.
      assert (Hh1e := Hh1 e). destruct (N.eq_dec e e) as [_|]; [|congruence].
      destruct (dyn_hdr s1 l i e HI1 Hb) as [sig1 Hr1]; [lia|].
      destruct Hsig as [nref0 Hr0]. destruct (inc_sig s e _ _ _ _ Hinc Hr0) as [nref' Hm1]. cbn [k_mem set_mem] in Hm1.
      pose proof (hdr_rd_inv _ _ _ _ _ Hr1) as Hm1'. rewrite Hm1 in Hm1'. injection Hm1' as <- ->.
      destruct (que_len s1 o (ao_view s o ++ [e])) as [m Hm]; [rewrite Hv1, Nat.eqb_refl; reflexivity|left; destruct (ao_view s o); discriminate|].
      rewrite app_length in Hm. cbn [length] in Hm. rewrite Nat2N.inj_add in Hm. cbn [N.of_nat Pos.of_succ_nat] in Hm.
      cbn [sec_recs]. unfold que_put_rec, sma_post_rec. rewrite Hm, Hr1. cbn [bind].
      destruct (IH os s1 l (rs0 ++ [TQuePut false (QAo o) (N.of_nat (length (ao_view s o)) + 1) m; TSmaPost false o sig (N.of_nat i + 1) (N.of_nat (holders s1 l e)) (N.of_nat (length (ao_view s o)) + 1) m]) HI1 Hi)
        as (s' & rs' & Ef & Hpub); auto.
      { intros p' Hp'. apply Hp. now right. }
      { now rewrite Hsp1. }
      { intros o' Ho' Es'. destruct (Hroom o' ltac:(now right) Es') as (a' & Ha' & Hlen').
        destruct (Hao1 o' a' Ha') as (a2 & Ha2 & En & _). exists a2. split; [exact Ha2|].
        rewrite Hv1, En. destruct (Nat.eqb_spec o' o) as [->|]; [contradiction|exact Hlen']. }
      { lia. }
      { eauto. }
      exists s'. eexists. split; [rewrite Ef, <- app_assoc; reflexivity|]. cbn [app pub_recs]. rewrite Hh1e in *.
      replace (N.of_nat (holders s l e + 1)) with (N.of_nat (holders s l e) + 1) in * by lia.
      repeat (split; [reflexivity|]). eapply pub_recs_ext; [|exact Hpub]. intros o' Ho'. rewrite Hv1.
      destruct (Nat.eqb_spec o' o) as [->|]; [|reflexivity]. apply filter_In in Ho'. tauto.
Qed.
Lemma publish_recs x ch e i sender os : reachable x -> let s := c_s x in let l := led_all x in
  ch < N.of_nat (k_maxch c) -> ch < 256 -> block_of pools rs i e -> live_evt statics s l e ->
  map (fun p => nth_error (k_sp s) (N.to_nat p)) (subscribers s ch) = map (fun o => Some (Some o)) os ->
  (forall o, In o os -> is_sender sender o = false -> ao_room s o 1) ->
  (holders s l e + 1 + length (filter (fun o => negb (is_sender sender o)) os) <= 255)%nat ->
  exists sig nref r, k_mem s e = Some (CEvt sig nref (N.of_nat i + 1)) /\ publish_trc c s ch e sender = Ok r /\
    pub_recs s sig (N.of_nat i + 1) (N.of_nat (holders s l e) + 1) (filter (fun o => negb (is_sender sender o)) os) r.
Proof.
  intros H s l Hc1 Hc2 Hb Hl E Hroom Href. pose proof (RI x H) as HC.
  pose proof (ci_k _ _ _ _ _ _ _ _ HC) as HI. fold s l in HI. pose proof (ki_q _ _ _ _ _ _ _ _ _ HI) as HQ.
  unfold subscribers in *. destruct (nth_error (k_ch s) (N.to_nat ch)) as [g|] eqn:Eg.
  2:{ apply nth_error_None in Eg. rewrite (kq_chlen _ _ _ _ _ _ _ _ HQ) in Eg. lia. }
  destruct (kq_ch _ _ _ _ _ _ _ _ HQ _ _ Eg) as [CS HR].
  pose proof (Hmax c mem0 statics prios dqs pools rs SO) as Hmx.
  rewrite (rg_list_rel _ _ _ Hmx HR) in *. set (ps := elements (max_sma (q_rg (k_qc c))) CS) in *.
  assert (Hasc : ascending ps) by apply elements_asc.
  destruct (inc_call c mem0 statics prios dqs pools rs SO s l e HI Hl) as (m' & Ei & HI1).
  set (l1 := LRef e :: rem1 (LFresh e) l) in *. set (s1 := set_mem s m') in *.
  assert (Hps : forall p, In p ps -> p < 256).
  { intros p Hp. apply in_elements in Hp. lia. }
  assert (Hh1 : holders s1 l1 e = (holders s l e + 1)%nat).
  { unfold holders. change (all_queued s1) with (all_queued s).
    unfold l1. rewrite cnt_cons, cnt_rem1. repeat destruct litem_dec; try congruence; lia. }
  destruct (dyn_hdr s1 l1 i e HI1 Hb) as [sig1 Hr1]; [lia|].
  assert (Hr0 : exists sig nref pool, hdr_rd (k_mem s) e = Ok (sig, nref, pool)).
  { unfold inc_ref in Ei. destruct (hdr_rd (k_mem s) e) as [[[a b] d]|]; [eauto|discriminate]. }
  destruct Hr0 as (sig & nref & pool & Hr0). destruct (inc_sig s e _ _ _ _ Ei Hr0) as [nref' Hm1].
  pose proof (hdr_rd_inv _ _ _ _ _ Hr1) as Hm1'. rewrite Hm1 in Hm1'. injection Hm1' as <- -> ->.
  destruct (publish_fold_trc e i sig sender ps os s1 l1 [] HI1 ltac:(now left) Hb Hps (ascending_NoDup2 _ Hasc) E Hroom) as (s2 & r & Ef & Hpub); [lia|eauto|].
  exists sig, nref, r. split; [eapply hdr_rd_inv; eauto|]. split.
  - unfold publish_trc. rewrite Ei. cbn [bind]. rewrite u8_small by lia. change (k_ch s1) with (k_ch s). rewrite (proj2 (rd_ok _ _ _) Eg). cbn [bind].
    rewrite (rg_traverse_rel _ g CS _ _ Hmx HR). fold ps. rewrite Ef. reflexivity.
  - rewrite Hh1 in Hpub. replace (N.of_nat (holders s l e + 1)) with (N.of_nat (holders s l e) + 1) in Hpub by lia.
    eapply pub_recs_ext; [|exact Hpub]. reflexivity.
Qed.
End Q.
