(** Proofs: run to completion, signals from sender to receiver, applications. *)
From Verif Require Import Base L_Base M_RdyGrp S_RdyGrp L_RdyGrp M_Queue S_Queue M_MemPool S_MemPool L_MemPool M_Kernel S_Kernel
  L_KMem L_KQueue L_Kernel L_KRun L_KBoot L_KProps M_Sm S_SmWf M_App S_App.
From Coq Require Import Permutation.
Local Open Scope N_scope.

(** ** What single atoms do, whatever the state *)
(** No registration, no stamp. *)
Definition plain (x : klab) : bool := match x with KReg _ | KOff _ | KStamp _ _ => false | _ => true end.
(** Every header keeps its signal, the registry stays. *)
Definition R0 (s : kst) (labs : list klab) (s' : kst) : Prop :=
  (forall a sig n p, k_mem s a = Some (CEvt sig n p) -> exists n' p', k_mem s' a = Some (CEvt sig n' p')) /\
  k_sp s' = k_sp s /\ forallb plain labs = true.
(** The same for all but one block, which becomes a free block or a new event; or a
    registration, with the initial transition to follow; or a termination. *)
Definition calm (p : prog) : Prop := match p with User (UInit _) _ | User (UDispatch _ _) _ => False | _ => True end.
Definition R (led : list litem) (s : kst) (labs : list klab) (s' : kst) (p' : prog) : Prop :=
  (forall a sig n p, k_mem s a = Some (CEvt sig n p) ->
    (exists n' p', k_mem s' a = Some (CEvt sig n' p')) \/ (exists l, k_mem s' a = Some (CLink l)) \/
    (exists i, labs = [KStamp i a])) /\
  ((k_sp s' = k_sp s /\ (forall o k, p' <> User (UInit o) k) /\ forall o, ~ In (KOff o) labs) \/
   (exists o pr k, k_sp s' = upd (k_sp s) (N.to_nat pr) (Some o) /\ p' = User (UInit o) k /\ labs = [KReg o] /\
      In (LAct o) led /\ exists a, nth_error (k_ao s) o = Some a /\ ao_prio a = pr) \/
   (exists o pr, k_sp s' = upd (k_sp s) (N.to_nat pr) None /\ (forall o k, p' <> User (UInit o) k) /\ labs = [KOff o] /\
      In (LReg o) led /\ exists a, nth_error (k_ao s) o = Some a /\ ao_prio a = pr)) /\
  (forall o e k, p' = User (UDispatch o e) k -> labs = [KGet o e]).

Lemma R0_same s s' labs : k_mem s' = k_mem s -> k_sp s' = k_sp s -> forallb plain labs = true -> R0 s labs s'.
Proof. intros E1 E2 H. split; [|split; assumption]. intros a sig n p. rewrite E1. eauto. Qed.
Lemma R0_trans s l1 s1 l2 s2 : R0 s l1 s1 -> R0 s1 l2 s2 -> R0 s (l1 ++ l2) s2.
Proof.
  intros (A1 & B1 & C1) (A2 & B2 & C2). split; [|split; [congruence|now rewrite forallb_app, C1, C2]].
  intros a sig n p H. destruct (A1 a sig n p H) as (n' & p' & E). exact (A2 _ _ _ _ E).
Qed.
Lemma plain_in labs x : forallb plain labs = true -> In x labs -> plain x = true.
Proof. intros H Hi. rewrite forallb_forall in H. auto. Qed.
Lemma calm_R led s labs s' p' : calm p' -> k_sp s' = k_sp s -> (forall o, ~ In (KOff o) labs) ->
  (forall a sig n p, k_mem s a = Some (CEvt sig n p) ->
    (exists n' p', k_mem s' a = Some (CEvt sig n' p')) \/ (exists l, k_mem s' a = Some (CLink l)) \/
    (exists i, labs = [KStamp i a])) -> R led s labs s' p'.
Proof.
  intros Hc Hs Hno H. split; [exact H|]. split; [left; split; [exact Hs|split; [|exact Hno]]|].
  - intros o k ->. exact Hc.
  - intros o e k ->. destruct Hc.
Qed.
Lemma R0_R led s labs s' p' : calm p' -> R0 s labs s' -> R led s labs s' p'.
Proof. intros Hc (A & B & C). apply calm_R; [exact Hc|exact B| |]. { intros o Hi. now apply (plain_in _ _ C) in Hi. } intros a sig n p H; left; eauto. Qed.

Inductive bind_cases {A B} (r : res A) (k : A -> res B) (y : B) : Prop :=
| bind_cases_ok x : r = Ok x -> k x = Ok y -> bind_cases r k y.
Lemma bind_inv {A B} (r : res A) (k : A -> res B) y : bind r k = Ok y -> bind_cases r k y.
Proof. destruct r as [x|f]; [|discriminate]. intros H. exists x; auto. Qed.
Ltac binv H := apply bind_inv in H; let x := fresh "x" in let E := fresh "E" in destruct H as [x E H].

Lemma hdr_wr_inv m e sig n p m' : hdr_wr m e sig n p = Ok m' ->
  forall a, m' a = if a =? e then Some (CEvt sig n p) else m a.
Proof.
  unfold hdr_wr, mem_wr. destruct (e =? 0); [discriminate|]. destruct (m e); [|discriminate]. intros H. injection H as <-. reflexivity.
Qed.
Lemma hdr_rd_inv m e sig n p : hdr_rd m e = Ok (sig, n, p) -> m e = Some (CEvt sig n p).
Proof.
  unfold hdr_rd. destruct (e =? 0); [discriminate|]. destruct (m e) as [[| |]|]; try discriminate. intros H. injection H as -> -> ->. reflexivity.
Qed.
Lemma R0_hdr s e sig n p n' p' m labs : hdr_rd (k_mem s) e = Ok (sig, n, p) -> hdr_wr (k_mem s) e sig n' p' = Ok m ->
  forallb plain labs = true -> R0 s labs (set_mem s m).
Proof.
  intros H1 H2 Hl. apply hdr_rd_inv in H1. split; [|split; [reflexivity|exact Hl]]. cbn [k_mem set_mem].
  intros a sg n0 p0 E. rewrite (hdr_wr_inv _ _ _ _ _ _ H2). destruct (N.eqb_spec a e) as [->|]; [|eauto].
  rewrite H1 in E. injection E as <- <- <-. eauto.
Qed.
Lemma R0_inc s e s' labs : inc_ref s e = Ok s' -> forallb plain labs = true -> R0 s labs s'.
Proof.
  unfold inc_ref. intros H Hl. binv H. destruct x as [[sig n] p]. destruct (p =? 0).
  - injection H as <-. now apply R0_same.
  - binv H. injection H as <-. eapply R0_hdr; eauto.
Qed.

Ltac hw := match goal with H : hdr_wr _ _ _ _ _ = Ok _ |- _ => rewrite (hdr_wr_inv _ _ _ _ _ _ H) end.

Section P.
Context (c : kcfg) (prios : list N).

Lemma R0_post lifo s o e s' l : post_sec c lifo s o e = Ok (s', l) -> R0 s l s'.
Proof.
  unfold post_sec. intros H. binv H. binv H. binv H. destruct x1 as [q g]. binv H. injection H as <- <-.
  pose proof (R0_inc _ _ _ [KPut lifo o e] E eq_refl) as (A & B & C). split; [exact A|]. split; [exact B|reflexivity].
Qed.

(** ** Programs all of whose atoms are such, with given kinds of application code *)
Inductive prog_ok (U : ucode -> bool) : prog -> list litem -> Prop :=
| pk_ret v led : prog_ok U (Ret v) led
| pk_user u k led : U u = true -> user_of k = [] -> prog_ok U k led -> prog_ok U (User u k) led
| pk_atom f led : (forall s s' labs p', map ao_prio (k_ao s) = prios -> f s = Ok (s', labs, p') -> R led s labs s' p') ->
    (forall s s' labs p', map ao_prio (k_ao s) = prios -> f s = Ok (s', labs, p') -> prog_ok U p' (fold_left led_step labs led)) ->
    prog_ok U (Atom f) led.
Lemma pk_both U f led : (forall s s' labs p', map ao_prio (k_ao s) = prios -> f s = Ok (s', labs, p') ->
  R led s labs s' p' /\ prog_ok U p' (fold_left led_step labs led)) -> prog_ok U (Atom f) led.
Proof. intros H. constructor; intros; eapply H; eauto. Qed.

Lemma R_pseq led s labs s' p' k : (forall v, calm (k v)) -> R led s labs s' p' -> R led s labs s' (pseq p' k).
Proof.
  intros Hk (A & B & C). split; [exact A|]. split.
  - assert (HU : (forall o k0, p' <> User (UInit o) k0) -> forall o k0, pseq p' k <> User (UInit o) k0).
    { intros B' o k0 E. destruct p'; cbn [pseq] in E; [specialize (Hk v); rewrite E in Hk; exact Hk|discriminate|].
      injection E as -> _. eapply B'. reflexivity. }
    destruct B as [(B & B' & B3)|[(o & pr & k0 & B1 & -> & B2)|(o & pr & B1 & B' & B2)]]; [left; auto|right; left; cbn [pseq]; eauto 8|].
    right. right. exists o, pr. auto.
  - intros o e k0 E. destruct p'; cbn [pseq] in E; [specialize (Hk v); rewrite E in Hk; destruct Hk|discriminate|].
    injection E as -> _. eapply C. reflexivity.
Qed.
Lemma prog_pseq U p k led : prog_ok U p led -> (forall v led, prog_ok U (k v) led) -> (forall v, user_of (k v) = []) ->
  prog_ok U (pseq p k) led.
Proof.
  intros H Hk Hu0. assert (Hc : forall v, calm (k v)).
  { intros v. specialize (Hu0 v). destruct (k v); try exact I. discriminate. }
  induction H as [v led|u p led Hu Hp H IH|f led HR H IH]; cbn [pseq]; [apply Hk|constructor; auto|].
  - rewrite user_pseq. destruct p; auto.
  - apply pk_both. intros s s' labs p' Hpr E. destruct (f s) as [[[s1 l1] p1]|] eqn:Ef; [|discriminate].
    injection E as <- <- <-. split; [apply R_pseq, (HR _ _ _ _ Hpr Ef); exact Hc|]. eapply IH; eauto.
Qed.

(** Application code other than handling an event, idling. *)
Definition ucall (u : ucode) : bool := match u with UInit _ => true | _ => false end.

Lemma ok_ae U sz sig led : prog_ok U (fwk_ae c sz sig) led.
Proof.
  apply pk_both. intros s s' labs p' ? H. binv H. binv H. binv H. injection H as <- <- <-.
  split; [apply R0_R; [exact I|]; apply R0_same; reflexivity|]. apply pk_both. intros s1 s1' labs p' ? H. binv H. destruct x2 as [s2 evt].
  binv H. injection H as <- <- <-. unfold evtPool_get in E2. binv E2. destruct x1 as [j|]; [|discriminate].
  binv E2. binv E2. destruct x4 as [p b]. binv E2. injection E2 as <- <-.
  split; [apply R0_R; [exact I|]; apply R0_same; reflexivity|]. apply pk_both. intros s3 s3' labs p' ? H. binv H. injection H as <- <- <-.
  split; [|constructor]. apply calm_R; [exact I|reflexivity|intros ? [Hd|[]]; discriminate Hd|].
  intros a sg n p0 Ha. cbn [k_mem set_mem]. hw.
  destruct (N.eqb_spec a b) as [->|]; [|eauto]. right. right. exists j. reflexivity.
Qed.

Lemma ok_gc U e led : prog_ok U (fwk_gc c e) led.
Proof.
  apply pk_both. intros s s' labs p' ? H. binv H. destruct x as [[sig n] p]. injection H as <- <- <-.
  split; [apply R0_R; [now destruct (n =? 0)|]; apply R0_same; reflexivity|]. destruct (n =? 0); [constructor|].
  apply pk_both. intros s1 s1' labs p' ? H. binv H. destruct x as [[sig1 n1] p1]. destruct (1 <? n1).
  - binv H. injection H as <- <- <-. split; [apply R0_R; [exact I|]; eapply R0_hdr; eauto|constructor].
  - cbv zeta in H. binv H. binv H. injection H as <- <- <-.
    split; [apply R0_R; [exact I|]; apply R0_same; [reflexivity|reflexivity|now destruct x0]|].
    apply pk_both. intros s2 s2' labs p' ? H. binv H. injection H as <- <- <-. unfold evtPool_put in E3. binv E3.
    destruct x0 as [j|]; [|discriminate]. binv E3. binv E3. destruct x3 as [q m]. binv E3. injection E3 as <-.
    split; [|constructor]. apply calm_R; [exact I|reflexivity|intros ? [Hd|[]]; discriminate Hd|].
    intros a sg n0 p0 Ha. cbn [k_mem set_mem set_pools]. match goal with H : mp_put _ _ _ _ _ = _ |- _ => rename H into Ep end.
    unfold mp_put in Ep. binv Ep. binv Ep. apply bind_inv in Ep. destruct Ep as [m1 Ew Ep]. injection Ep as _ <-.
    unfold mem_wr in Ew. destruct (k_mem s2 e); [|discriminate]. injection Ew as <-.
    destruct (N.eqb_spec a e) as [->|]; eauto.
Qed.

Lemma ok_reserve U e led : prog_ok U (fwk_reserve e) led.
Proof. apply pk_both. intros s s' labs p' ? H. binv H. injection H as <- <- <-. split; [apply R0_R; [exact I|]; eapply R0_inc; eauto|constructor]. Qed.
Lemma ok_post U lifo o e led : prog_ok U (sma_post c lifo o e) led.
Proof. apply pk_both. intros s s' labs p' ? H. binv H. destruct x as [s1 l]. injection H as <- <- <-. split; [apply R0_R; [exact I|]; eapply R0_post; eauto|constructor]. Qed.
Lemma ok_defer U d e led : prog_ok U (sma_defer c d e) led.
Proof.
  apply pk_both. intros s s' labs p' ? H. binv H. binv H. binv H. destruct x1 as [q g]. binv H. injection H as <- <- <-.
  split; [|constructor]. apply R0_R; [exact I|]. pose proof (R0_inc _ _ _ [KDefer d e] E eq_refl) as (A & B & C). split; [exact A|]. split; [exact B|reflexivity].
Qed.
Lemma ok_recall U o d led : prog_ok U (sma_recall c o d) led.
Proof.
  apply pk_both. intros s s' labs p' ? H. binv H. binv H. destruct x0 as [[q g] [e|]]; binv H; injection H as <- <- <-.
  2:{ split; [apply R0_R; [exact I|]; apply R0_same; reflexivity|constructor]. }
  split; [apply R0_R; [exact I|]; apply R0_same; reflexivity|]. apply pk_both. intros s1 s1' labs p' ? H. binv H. destruct x1 as [s2 l].
  injection H as <- <- <-. split; [apply R0_R; [exact I|]; eapply R0_post; eauto|]. apply pk_both. intros s3 s3' labs p' ? H.
  binv H. destruct x1 as [[sig n] p]. destruct (n =? 0).
  - injection H as <- <- <-. split; [apply R0_R; [exact I|]; apply R0_same; reflexivity|constructor].
  - binv H. binv H. injection H as <- <- <-. split; [apply R0_R; [exact I|]; eapply R0_hdr; eauto|constructor].
Qed.
Lemma ok_activate U o qs n : U (UInit o) = true -> prog_ok U (sma_activate c o qs n) [LAct o].
Proof.
  intros HU. apply pk_both. intros s s' labs p' Hpr H. binv H. binv H. binv H. injection H as <- <- <-.
  split; [apply R0_R; [exact I|]; apply R0_same; reflexivity|]. unfold sma_register. cbn [pseq]. apply pk_both. intros s1 s1' labs p' Hpr1 H.
  match type of H with match ?r with _ => _ end = _ => destruct r as [[[s2 l2] p2]|] eqn:Ea; [|discriminate] end.
  injection H as <- <- <-. binv Ea. rename x2 into a1. binv Ea. binv Ea. injection Ea as <- <- <-.
  split; [apply R0_R; [exact I|]; apply R0_same; reflexivity|]. cbn [pseq]. apply pk_both. intros s3 s3' labs p' Hpr3 H.
  match type of H with match ?r with _ => _ end = _ => destruct r as [[[s4 l4] p4]|] eqn:Eb; [|discriminate] end.
  injection H as <- <- <-. binv Eb. injection Eb as <- <- <-. cbn [pseq].
  split; [|constructor; [exact HU|reflexivity|constructor]]. split; [left; eauto|]. split; [right; left|discriminate].
  exists o, (ao_prio a1), (Ret 0). cbn [k_sp set_sp].
  match goal with H : wr _ _ _ = Ok x4 |- _ => rename H into Ew | H : wr _ _ _ = Ok _ |- _ => rename H into Ew end.
  split; [unfold wr in Ew; destruct (_ <? _)%nat; [|discriminate]; now injection Ew|]. split; [reflexivity|]. split; [reflexivity|].
  split; [right; now left|]. match goal with H : rd _ o = Ok a1 |- _ => apply rd_ok in H; rename H into Er end.
  assert (Ep : nth_error prios o = Some (ao_prio a1)) by (rewrite <- Hpr1, nth_error_map, Er; reflexivity).
  rewrite <- Hpr3, nth_error_map in Ep. destruct (nth_error (k_ao s3) o) as [a3|]; [|discriminate]. exists a3. split; [reflexivity|].
  now injection Ep.
Qed.
Lemma ok_terminate U o : prog_ok U (sma_terminate c o) [LReg o].
Proof.
  apply pk_both. intros s s' labs p' Hpr H. binv H. rename x into a1. binv H. binv H. injection H as <- <- <-.
  split; [apply R0_R; [exact I|]; apply R0_same; reflexivity|]. apply pk_both. intros s1 s1' labs p' Hpr1 H.
  binv H. injection H as <- <- <-. split; [|constructor]. split; [left; eauto|]. split; [right; right|discriminate].
  exists o, (ao_prio a1). cbn [k_sp set_sp].
  match goal with H : wr _ _ _ = Ok _ |- _ => rename H into Ew end.
  split; [unfold wr in Ew; destruct (_ <? _)%nat; [|discriminate]; now injection Ew|]. split; [discriminate|]. split; [reflexivity|].
  split; [now left|]. match goal with H : rd _ o = Ok a1 |- _ => apply rd_ok in H; rename H into Er end.
  assert (Ep : nth_error prios o = Some (ao_prio a1)) by (rewrite <- Hpr, nth_error_map, Er; reflexivity).
  rewrite <- Hpr1, nth_error_map in Ep. destruct (nth_error (k_ao s1) o) as [a3|]; [|discriminate]. exists a3. split; [reflexivity|].
  now injection Ep.
Qed.
Lemma R0_ch s l : R0 s [] (set_ch s l).
Proof. now apply R0_same. Qed.
Lemma ok_sub U ch o led : prog_ok U (ps_subscribe c ch o) led.
Proof. apply pk_both. intros s s' labs p' ? H. do 5 binv H. injection H as <- <- <-. split; [apply R0_R; [exact I|]; apply R0_ch|constructor]. Qed.
Lemma ok_unsub U ch o led : prog_ok U (ps_unsubscribe c ch o) led.
Proof. apply pk_both. intros s s' labs p' ? H. do 5 binv H. injection H as <- <- <-. split; [apply R0_R; [exact I|]; apply R0_ch|constructor]. Qed.
Lemma ok_unsubAll U o led : prog_ok U (ps_unsubscribeAll c o) led.
Proof. apply pk_both. intros s s' labs p' ? H. do 2 binv H. injection H as <- <- <-. split; [apply R0_R; [exact I|]; apply R0_ch|constructor]. Qed.

Lemma bits_keep {W} (P : W -> Prop) (cb : N -> W -> res W) : (forall p w w', P w -> cb p w = Ok w' -> P w') ->
  forall k row i b n w n' w', P w -> rg_bits cb row k i b n w = Ok (n', w') -> P w'.
Proof.
  intros Hcb. induction k as [|k IH]; intros row i b n w n' w' HP H; cbn [rg_bits] in H.
  - injection H as <- <-. exact HP.
  - destruct (b =? 0); [injection H as <- <-; exact HP|]. destruct (N.odd b).
    + binv H. eapply IH; [|exact H]. eauto.
    + eapply IH; eauto.
Qed.
Lemma rows_keep {W} (P : W -> Prop) (cb : N -> W -> res W) : (forall p w w', P w -> cb p w = Ok w' -> P w') ->
  forall t row n w n' w', P w -> rg_rows cb row t n w = Ok (n', w') -> P w'.
Proof.
  intros Hcb. induction t as [|b t IH]; intros row n w n' w' HP H; cbn [rg_rows] in H.
  - injection H as <- <-. exact HP.
  - binv H. destruct x as [n1 w1]. eapply IH; [|exact H]. eapply bits_keep; eauto.
Qed.
Lemma trav_keep {W} (P : W -> Prop) (cb : N -> W -> res W) g w n' w' : (forall p w w', P w -> cb p w = Ok w' -> P w') ->
  P w -> rg_traverse g cb w = Ok (n', w') -> P w'.
Proof.
  intros Hcb HP H. unfold rg_traverse in H. destruct (negb _); [eapply rows_keep; eauto|]. injection H as <- <-. exact HP.
Qed.
Lemma ok_publish U ch e sn led : prog_ok U (ps_publish c ch e sn) led.
Proof.
  apply pk_both. intros s s' labs p' ? H. binv H. binv H. binv H. destruct x1 as [n [s1 l1]]. injection H as <- <- <-.
  split; [|apply (prog_pseq U (fwk_gc c e) (fun _ => Ret n)); [apply ok_gc|constructor|reflexivity]]. apply R0_R; [exact I|].
  apply (trav_keep (fun w => R0 s (snd w) (fst w)) _ _ _ _ _) in E1; [exact E1| |eapply R0_inc; eauto].
  intros p [s2 l2] w' HP H. unfold ps_cb in H. binv H. binv H. destruct x1 as [o|].
  - destruct (match sn with Some o' => _ | None => _ end); [injection H as <-; exact HP|].
    binv H. destruct x1 as [s3 l3]. injection H as <-. eapply R0_trans; [exact HP|]. eapply R0_post; eauto.
  - destruct sn; [discriminate|]. injection H as <-. exact HP.
Qed.
Lemma ok_tick U ps led : prog_ok U (tick_posts c ps) led.
Proof.
  apply pk_both. intros s s' labs p' ? H. binv H. destruct x as [s1 l1]. injection H as <- <- <-. split; [|constructor].
  apply R0_R; [exact I|]. assert (G : forall ps r s1 l1, fold_left (fun r pe => do (s, labs) <- r; do (s, l) <- post_sec c false s (fst pe) (snd pe); Ok (s, labs ++ l)) ps r = Ok (s1, l1) ->
    (forall s0 l0, r = Ok (s0, l0) -> R0 s l0 s0) -> R0 s l1 s1).
  { clear. induction ps as [|pe ps IH]; intros r s1 l1 H Hr; cbn [fold_left] in H; [eauto|].
    eapply IH; [exact H|]. intros s0 l0 E. binv E. destruct x as [s2 l2]. binv E. destruct x as [s3 l3]. injection E as <- <-.
    eapply R0_trans; [eauto|]. eapply R0_post; eauto. }
  eapply G; [exact E|]. intros s0 l0 H. injection H as <- <-. apply R0_same; reflexivity.
Qed.
Definition ub (u : ucode) : bool := match u with UDispatch _ _ | UIdle | UMain => true | _ => false end.
Definition uc (u : ucode) : bool := match u with UInit _ | UIsr => true | _ => false end.
Lemma ok_api op led : (forall o qs n, op = OActivate o qs n -> led = [LAct o]) -> (forall o, op = OTerm o -> led = [LReg o]) -> prog_ok uc (api c op) led.
Proof.
  intros H H'. destruct op; cbn [api]; [apply ok_ae|apply ok_gc|apply ok_reserve|apply ok_post|apply ok_publish|apply ok_sub|apply ok_unsub
    |apply ok_unsubAll|apply ok_defer|apply ok_recall|rewrite (H _ _ _ eq_refl); now apply ok_activate|apply ok_tick|rewrite (H' _ eq_refl); apply ok_terminate].
Qed.
Lemma ok_sched led : prog_ok ub (sched_once c) led.
Proof.
  apply pk_both. intros s s' labs p' ? H. destruct (rg_isReady (k_rg s)).
  - binv H. binv H. injection H as <- <- <-.
    split; [apply R0_R; [now destruct x0|]; apply R0_same; [reflexivity|reflexivity|now destruct x0]|].
    destruct x0 as [o|]; [|apply pk_both; discriminate]. apply pk_both. intros s1 s1' labs p' ? H.
    binv H. binv H. destruct x1 as [[q g] e]. binv H. binv H. injection H as <- <- <-.
    split; [|constructor; [reflexivity|reflexivity|apply ok_gc]]. split; [left; eauto|]. split.
    + left. split; [reflexivity|]. split; [discriminate|intros ? [Hd|[]]; discriminate Hd].
    + intros o' e' k E'. injection E' as <- <- _. reflexivity.
  - injection H as <- <- <-. split; [apply R0_R; [exact I|]; apply R0_same; reflexivity|]. constructor; [reflexivity|reflexivity|constructor].
Qed.

(** ** The shape of the stack *)
Fixpoint shape (stk : list frame) : Prop :=
  match stk with
  | [] => False
  | [f] => prog_ok ub (f_p f) (f_led f)
  | f :: below => prog_ok uc (f_p f) (f_led f) /\ shape below
  end.

Lemma shape_set f stk isr led p : shape (f :: stk) ->
  (forall U, prog_ok U (f_p f) (f_led f) -> prog_ok U p led) -> shape (mkF isr led p :: stk).
Proof. destruct stk; cbn [shape f_p f_led]; [auto|]. intros [A B] H. auto. Qed.
Lemma shape_top f stk : shape (f :: stk) -> exists U, prog_ok U (f_p f) (f_led f) /\ (stk = [] \/ U = uc).
Proof. destruct stk; cbn [shape]; [exists ub; auto|]. intros [A _]. exists uc. auto. Qed.
Lemma shape_below f g stk : shape (f :: g :: stk) -> shape (g :: stk).
Proof. intros [_ H]. exact H. Qed.
Lemma ok_user_inv U u k led : prog_ok U (User u k) led -> U u = true /\ user_of k = [] /\ prog_ok U k led.
Proof. intros H. inversion H; auto. Qed.
Lemma ok_atom_inv U f led : prog_ok U (Atom f) led -> forall s s' labs p', map ao_prio (k_ao s) = prios ->
  f s = Ok (s', labs, p') -> R led s labs s' p' /\ prog_ok U p' (fold_left led_step labs led).
Proof. intros H. inversion H; subst; intros; split; eauto. Qed.

Lemma grab_act statics s l lower isr op mine l' : grab c statics s l lower isr op = Some (mine, l') ->
  forall o qs n, op = OActivate o qs n -> mine = [LAct o].
Proof.
  intros H o qs n ->. unfold grab in H. cbn [op_ok op_evt] in H.
  match type of H with match (if ?b then _ else _) with _ => _ end = _ => destruct b; [|discriminate] end. now injection H.
Qed.

Lemma grab_term statics s l lower isr op mine l' : grab c statics s l lower isr op = Some (mine, l') ->
  forall o, op = OTerm o -> mine = [LReg o].
Proof.
  intros H o ->. unfold grab in H. cbn [op_ok op_evt] in H.
  match type of H with match (if ?b then _ else _) with _ => _ end = _ => destruct b; [|discriminate] end. now injection H.
Qed.
(** Steps that only move the stack, and atoms. *)
Definition moves (x x' : conf) : Prop := c_s x' = c_s x /\ c_log x' = c_log x.
Definition acts (x x' : conf) (top : frame) (stk : list frame) (labs : list klab) (p' : prog) : Prop :=
  c_stk x = top :: stk /\ R (f_led top) (c_s x) labs (c_s x') p' /\
  x' = mkC (c_s x') (c_led x) (mkF (f_isr top) (fold_left led_step labs (f_led top)) p' :: stk)
           (c_log x ++ map EL labs ++ user_of p').
Lemma step_cases statics x ch x' : map ao_prio (k_ao (c_s x)) = prios -> shape (c_stk x) -> cstep c statics x ch = Ok x' ->
  shape (c_stk x') /\
  (moves x x' \/ exists top stk labs p', acts x x' top stk labs p' /\ exists f, f_p top = Atom f).
Proof.
  intros Hpr Hsh H. destruct x as [s l stk log]. cbn [c_s c_stk] in *. destruct ch as [|op|].
  - destruct stk as [|top stk]; [destruct Hsh|]. cbn [cstep c_stk c_s c_led c_log] in H. destruct top as [isr led p]. cbn [f_p f_led f_isr] in *.
    destruct p as [v|f|u k].
    + destruct stk as [|g stk]; injection H as <-; (split; [|left; split; reflexivity]); cbn [c_stk].
      * cbn [shape f_p f_led]. apply ok_sched.
      * eapply shape_below. exact Hsh.
    + destruct (f s) as [[[s' labs] p']|] eqn:Ef; [|discriminate].
      match type of H with (if ?b then _ else _) = _ => destruct b end; injection H as <-.
      { split; [exact Hsh|left; split; reflexivity]. }
      cbn [c_stk]. destruct (shape_top _ _ Hsh) as (U & HU & _). cbn [f_p f_led] in HU.
      destruct (ok_atom_inv _ _ _ HU _ _ _ _ Hpr Ef) as [HR _]. split.
      * eapply shape_set; [exact Hsh|]. intros U' HU'. now apply (ok_atom_inv _ _ _ HU' _ _ _ _ Hpr Ef).
      * right. exists (mkF isr led (Atom f)), stk, labs, p'. split; [|exists f; reflexivity]. split; [reflexivity|]. split; [exact HR|reflexivity].
    + injection H as <-. destruct (shape_top _ _ Hsh) as (U & HU & _). cbn [f_p f_led] in HU. apply ok_user_inv in HU.
      destruct HU as (_ & Eu & _). split; [|left; split; [reflexivity|cbn [c_log]; now rewrite Eu, app_nil_r]].
      cbn [c_stk]. eapply shape_set; [exact Hsh|]. intros U' HU'. now apply ok_user_inv in HU'.
  - destruct stk as [|top stk]; [destruct Hsh|]. cbn [cstep c_stk c_s c_led c_log] in H.
    destruct (f_p top) as [v|f|u k] eqn:Ep; try (injection H as <-; split; [exact Hsh|left; split; reflexivity]).
    destruct (grab c statics s l _ (f_isr top) op) as [[mine l']|] eqn:Eg; injection H as <-; (split; [|left; split; reflexivity]); [|exact Hsh].
    split; [|exact Hsh]. cbn [f_p f_led]. apply ok_api; [eapply grab_act|eapply grab_term]; exact Eg.
  - injection H as <-. split; [|left; split; reflexivity]. cbn [c_stk]. destruct stk as [|g stk]; [destruct Hsh|].
    split; [|exact Hsh]. cbn [f_p f_led]. constructor; [reflexivity|reflexivity|constructor].
Qed.

Lemma shape_disp f stk : shape (f :: stk) -> stk <> [] -> match f_p f with User (UDispatch o e) _ => [(o, e)] | _ => [] end = @nil (nat * N).
Proof.
  intros H Hn. destruct (shape_top _ _ H) as (U & HU & [E| ->]); [contradiction|].
  destruct (f_p f) as [| |[] k]; try reflexivity. apply ok_user_inv in HU. destruct HU as [HU _]. discriminate.
Qed.
(** Only the bottom frame dispatches. *)
Lemma shape_last stk : shape stk -> exists up bot, stk = up ++ [bot] /\ prog_ok ub (f_p bot) (f_led bot) /\
  (forall f, In f up -> prog_ok uc (f_p f) (f_led f)).
Proof.
  induction stk as [|f stk IH]; [intros []|]. destruct stk as [|g stk].
  - intros H. exists [], f. split; [reflexivity|]. split; [exact H|intros ? []].
  - intros [A B]. destruct (IH B) as (up & bot & -> & Hb & Hu). exists (f :: up), bot. split; [reflexivity|]. split; [exact Hb|].
    intros h [<-|Hh]; auto.
Qed.
Definition disp1 (f : frame) : list (nat * N) := match f_p f with User (UDispatch o e) _ => [(o, e)] | _ => [] end.
Lemma uc_disp f : prog_ok uc (f_p f) (f_led f) -> disp1 f = [].
Proof.
  intros HU. unfold disp1. destruct (f_p f) as [| |[] k]; try reflexivity. apply ok_user_inv in HU. destruct HU as [HU _]. discriminate.
Qed.
Lemma disp_last stk up bot : stk = up ++ [bot] -> (forall f, In f up -> prog_ok uc (f_p f) (f_led f)) ->
  concat (map disp1 stk) = disp1 bot.
Proof.
  intros -> Hu. rewrite map_app, concat_app. cbn [map concat]. rewrite app_nil_r.
  induction up as [|f up IH]; [reflexivity|]. cbn [map concat app]. rewrite uc_disp by (apply Hu; now left).
  apply IH. intros g Hg. apply Hu. now right.
Qed.
End P.

Section Q.
Context (c : kcfg) (mem0 : @mem cell) (statics : list (N * N)) (prios : list N)
  (dqs : list (list (option N) * nat)) (pools : list (N * N * N)) (rs : list N).
Context (SO : sys_ok c mem0 statics prios dqs pools rs).
Notation PB := (pool_lists pools rs).
Notation reachable := (reachable c mem0 statics prios dqs pools).
Notation RI := (reach_inv c mem0 statics prios dqs pools rs SO).

Lemma crun_snoc chs ch x : crun c statics x (chs ++ [ch]) = do y <- crun c statics x chs; cstep c statics y ch.
Proof.
  revert x. induction chs as [|h t IH]; intros x; cbn [crun app bind].
  - destruct (cstep c statics x ch); reflexivity.
  - destruct (cstep c statics x h) as [y|]; [apply IH|reflexivity].
Qed.
Lemma reach_ind (P : conf -> Prop) : (forall s, start c mem0 prios dqs pools = Ok s -> P (conf0 s)) ->
  (forall x ch x', reachable x -> P x -> cstep c statics x ch = Ok x' -> P x') -> forall x, reachable x -> P x.
Proof.
  intros H0 HS x (s & chs & Es & Ex). revert x Ex. induction chs as [|ch chs IH] using rev_ind; intros x Ex.
  - injection Ex as <-. auto.
  - rewrite crun_snoc in Ex. destruct (crun c statics (conf0 s) chs) as [y|] eqn:Ey; [|discriminate]. cbn [bind] in Ex.
    eapply HS; [|apply IH; reflexivity|exact Ex]. exists s, chs. auto.
Qed.
Lemma reach_prios x : reachable x -> map ao_prio (k_ao (c_s x)) = prios.
Proof. intros H. apply (kq_prios _ _ _ _ _ _ _ _ (ki_q _ _ _ _ _ _ _ _ _ (ci_k _ _ _ _ _ _ _ _ (RI x H)))). Qed.
Lemma reach_shape x : reachable x -> shape prios (c_stk x).
Proof.
  revert x. apply (reach_ind (fun x => shape prios (c_stk x))).
  - intros s Es. cbn. constructor; [reflexivity|reflexivity|constructor].
  - intros y ch x' Hy Hs E. eapply step_cases; [apply (reach_prios y Hy)|exact Hs|exact E].
Qed.
Lemma reach_cases x ch x' : reachable x -> cstep c statics x ch = Ok x' ->
  moves x x' \/ exists top stk labs p', acts x x' top stk labs p' /\ exists f, f_p top = Atom f.
Proof. intros H E. eapply step_cases; [apply (reach_prios x H)|apply (reach_shape x H)|exact E]. Qed.

(** ** Run to completion *)
Lemma skipn_app_len {A} (l r : list A) : skipn (length l) (l ++ r) = r.
Proof. rewrite skipn_app, skipn_all, Nat.sub_diag. reflexivity. Qed.
Lemma one_dispatch x : reachable x -> (length (dispatching x) <= 1)%nat.
Proof.
  intros H. destruct (shape_last _ _ (reach_shape x H)) as (up & bot & E & _ & Hu).
  change (dispatching x) with (concat (map disp1 (c_stk x))). rewrite (disp_last _ _ _ _ E Hu).
  unfold disp1. destruct (f_p bot) as [| |[]]; cbn; lia.
Qed.
Lemma starts_alone x ch x' o e : reachable x -> cstep c statics x ch = Ok x' ->
  In (EU (UDispatch o e)) (skipn (length (c_log x)) (c_log x')) ->
  length (c_stk x) = 1%nat /\ dispatching x = [] /\ user_code x = false /\ dispatching x' = [(o, e)].
Proof.
  intros H E Hi. destruct (reach_cases x ch x' H E) as [(_ & El)|(top & stk & labs & p' & (A1 & _ & A3) & f & Ef)].
  - rewrite El, skipn_all in Hi. destruct Hi.
  - pose proof (reach_step _ _ _ _ _ _ _ _ _ H E) as H'. apply reach_shape in H'.
    rewrite A3 in Hi, H'. cbn [c_log c_stk] in Hi, H'. rewrite skipn_app_len in Hi. apply in_app_iff in Hi.
    destruct Hi as [Hi|Hi]; [apply in_map_iff in Hi; destruct Hi as (? & ? & _); discriminate|].
    destruct p' as [v|f0|u k]; [destruct Hi|destruct Hi|]. destruct Hi as [Hi|[]]. injection Hi as ->.
    destruct (shape_top _ _ _ H') as (U & HU & [->| ->]).
    + split; [now rewrite A1|]. split; [unfold dispatching; rewrite A1; cbn; now rewrite Ef|].
      split; [unfold user_code; rewrite A1; cbn; now rewrite Ef|]. rewrite A3. reflexivity.
    + cbn [f_p f_led] in HU. apply ok_user_inv in HU. destruct HU as [HU _]. discriminate.
Qed.
Lemma runs_on x ch x' : reachable x -> cstep c statics x ch = Ok x' -> dispatching x <> [] -> (1 < length (c_stk x))%nat ->
  dispatching x' = dispatching x.
Proof.
  intros H E Hd Hl. destruct (c_stk x) as [|top [|g stk]] eqn:Es; [cbn in Hl; lia|cbn in Hl; lia|].
  pose proof (reach_shape x H) as Hs. rewrite Es in Hs. pose proof Hs as [Ht Hb].
  change (dispatching x) with (concat (map disp1 (c_stk x))) in *. change (dispatching x') with (concat (map disp1 (c_stk x'))).
  rewrite Es in *. cbn [map concat] in Hd |- *. rewrite (uc_disp _ _ Ht) in *. cbn [app] in *.
  destruct x as [s l stk0 log]. cbn [c_stk] in Es. subst stk0.
  assert (Hgo : forall led p isr, prog_ok prios uc p led -> concat (map disp1 (mkF isr led p :: g :: stk)) = disp1 g ++ concat (map disp1 stk)).
  { intros led p isr Hp. cbn [map concat]. now rewrite (uc_disp prios (mkF isr led p)). }
  destruct ch as [|op|]; cbn [cstep c_stk c_s c_led c_log] in E.
  - destruct (f_p top) as [v|f|u k] eqn:Ep.
    + injection E as <-. reflexivity.
    + destruct (f s) as [[[s' labs] p']|] eqn:Ef; [|discriminate].
      match type of E with (if ?b then _ else _) = _ => destruct b end; injection E as <-; cbn [c_stk].
      * cbn [map concat]. unfold disp1 at 1. now rewrite Ep.
      * apply Hgo. eapply ok_atom_inv; [exact Ht| |exact Ef]. apply (reach_prios _ H).
    + injection E as <-. cbn [c_stk]. apply Hgo. now apply ok_user_inv in Ht.
  - destruct (f_p top) as [v|f|u k] eqn:Ep; try (injection E as <-; cbn [c_stk map concat]; unfold disp1 at 1; now rewrite Ep).
    assert (Htop : disp1 top = []) by (apply (uc_disp prios); now rewrite Ep).
    match type of E with context [grab ?a ?b ?c0 ?d ?e ?f ?h] => destruct (grab a b c0 d e f h) as [[mine l']|] eqn:Eg end;
      injection E as <-; cbn [c_stk map concat]; rewrite Htop; [|reflexivity].
    rewrite (uc_disp prios); [reflexivity|]. cbn [f_p f_led]. apply ok_api; [eapply grab_act|eapply grab_term]; exact Eg.
  - injection E as <-. cbn [c_stk map concat]. rewrite (uc_disp prios top) by exact Ht. reflexivity.
Qed.

(** ** Initial transitions *)
Definition regp (sp : list (option nat)) (o : nat) : bool :=
  match nth_error prios o with
  | Some p => match nth_error sp (N.to_nat p) with Some (Some o') => Nat.eqb o o' | _ => false end
  | None => false
  end.
Lemma registered_p s o : map ao_prio (k_ao s) = prios -> registered s o = regp (k_sp s) o.
Proof. intros E. unfold registered, regp. rewrite <- E, nth_error_map. destruct (nth_error (k_ao s) o); reflexivity. Qed.
Lemma init_count_app o l1 l2 : init_count o (l1 ++ l2) = (init_count o l1 + init_count o l2)%nat.
Proof. unfold init_count. now rewrite filter_app, app_length. Qed.
Lemma init_count_labs o labs : init_count o (map EL labs) = 0%nat.
Proof. unfold init_count. induction labs as [|x t IH]; [reflexivity|exact IH]. Qed.
Lemma off_count_app o l1 l2 : off_count o (l1 ++ l2) = (off_count o l1 + off_count o l2)%nat.
Proof. unfold off_count. now rewrite filter_app, app_length. Qed.
Lemma off_count_user o p : off_count o (user_of p) = 0%nat.
Proof. destruct p; reflexivity. Qed.
Lemma off_count_labs o labs : (forall o, ~ In (KOff o) labs) -> off_count o (map EL labs) = 0%nat.
Proof.
  intros H. unfold off_count. induction labs as [|x t IH]; [reflexivity|]. cbn [map filter].
  destruct x; try (apply IH; intros o' Hi; apply (H o'); now right). elim (H o0). now left.
Qed.
Lemma off_none o l : ~ In (EL (KOff o)) l -> off_count o l = 0%nat.
Proof.
  intros H. unfold off_count. induction l as [|x t IH]; [reflexivity|]. cbn [filter].
  assert (Ht : length (filter (fun x => match x with EL (KOff o') => Nat.eqb o o' | _ => false end) t) = 0%nat) by (apply IH; intros Hi; apply H; now right).
  destruct x as [[]|]; try exact Ht. destruct (Nat.eqb_spec o o0) as [->|]; [elim H; now left|exact Ht].
Qed.
Lemma boot_sp ps : forall s s', boot c s ps = Ok s' -> k_sp s' = k_sp s.
Proof.
  induction ps as [|[[a n] b] ps IH]; intros s s' H; cbn [boot] in H; [now injection H as <-|].
  binv H. rewrite (IH _ _ H). clear IH H. unfold fwk_registerEvtPool in E. binv E. binv E. destruct x1 as [s1 ep].
  binv E. binv E. injection E as <-. cbn [k_sp set_pools].
  match goal with H : evtPool_getPool _ _ _ _ _ = _ |- _ => rename H into Eg end. unfold evtPool_getPool in Eg.
  destruct (find_unused (k_ep s) 0); [|injection Eg as <- _; reflexivity].
  apply bind_inv in Eg. destruct Eg as [[q m] _ Eg]. binv Eg. injection Eg as <- _. reflexivity.
Qed.
Lemma init_reg x : reachable x -> forall o,
  init_count o (c_log x) = (off_count o (c_log x) + if registered (c_s x) o then 1 else 0)%nat.
Proof.
  revert x. apply (reach_ind (fun x => forall o, init_count o (c_log x) = (off_count o (c_log x) + if registered (c_s x) o then 1 else 0)%nat)).
  - intros s Es o. cbn [conf0 c_log c_s]. replace (registered s o) with false; [reflexivity|]. symmetry.
    unfold registered. rewrite (boot_sp _ _ _ Es). cbn [kst0 k_sp]. destruct (nth_error (k_ao s) o) as [a|]; [|reflexivity].
    destruct (nth_error (repeat None _) _) as [y|] eqn:E; [|reflexivity]. apply nth_error_In, repeat_spec in E. now subst y.
  - intros x ch x' H IH E o. pose proof (reach_step _ _ _ _ _ _ _ _ _ H E) as H'.
    destruct (reach_cases x ch x' H E) as [(Es & El)|(top & stk & labs & p' & (A1 & (_ & B & _) & A3) & _)].
    { rewrite Es, El. apply IH. }
    rewrite (registered_p _ _ (reach_prios x' H')). specialize (IH o). rewrite (registered_p _ _ (reach_prios x H)) in IH.
    rewrite A3. cbn [c_log c_s]. rewrite !init_count_app, init_count_labs, IH, !off_count_app, off_count_user. cbn [Nat.add].
    pose proof (ci_stk _ _ _ _ _ _ _ _ (RI x H)) as Hst. rewrite A1 in Hst. destruct Hst as (_ & Hev & _).
    assert (Hnu : (forall o k, p' <> User (UInit o) k) -> init_count o (user_of p') = 0%nat).
    { intros Hn. destruct p' as [| |u k]; try reflexivity. destruct u as [| |o'| |]; try reflexivity. exfalso. now apply (Hn o' k). }
    destruct B as [(Esp & Hn & Hno)|[(o1 & pr & k & Esp & -> & El & Hla & a & Ha & Hp)|(o1 & pr & Esp & Hn & El & Hla & a & Ha & Hp)]]; rewrite Esp.
    + rewrite (Hnu Hn), (off_count_labs o labs Hno). lia.
    + destruct (Hev _ Hla) as (a' & Ha' & _ & Hsp). rewrite Ha in Ha'. injection Ha' as <-. rewrite Hp in Hsp.
      assert (Hpo : nth_error prios o1 = Some pr) by (rewrite <- (reach_prios x H), nth_error_map, Ha; cbn; now rewrite Hp).
      rewrite (off_count_labs o labs) by (rewrite El; intros ? [Hd|[]]; discriminate Hd).
      cbn [user_of]. unfold init_count. cbn [filter]. unfold regp.
      destruct (nth_error prios o) as [p|] eqn:Eo.
      2:{ destruct (Nat.eqb_spec o o1) as [->|]; [congruence|cbn [length]; lia]. }
      destruct (N.eq_dec p pr) as [->|Hne].
      * rewrite Hsp. rewrite nth_upd_eq by (eapply nth_some_lt; eauto). destruct (Nat.eqb o o1); cbn [length]; lia.
      * rewrite nth_upd_ne by lia. destruct (Nat.eqb_spec o o1) as [->|]; [congruence|]. cbn [length]. lia.
    + destruct (Hev _ Hla) as (a' & Ha' & Hsp). rewrite Ha in Ha'. injection Ha' as <-. unfold reg in Hsp. rewrite Hp in Hsp.
      assert (Hpo : nth_error prios o1 = Some pr) by (rewrite <- (reach_prios x H), nth_error_map, Ha; cbn; now rewrite Hp).
      rewrite (Hnu Hn), El. cbn [map]. unfold off_count at 3. cbn [filter]. unfold regp.
      destruct (nth_error prios o) as [p|] eqn:Eo.
      2:{ destruct (Nat.eqb_spec o o1) as [->|]; [congruence|cbn [length]; lia]. }
      destruct (N.eq_dec p pr) as [->|Hne].
      * rewrite Hsp. rewrite nth_upd_eq by (eapply nth_some_lt; eauto). destruct (Nat.eqb o o1); cbn [length]; lia.
      * rewrite nth_upd_ne by lia. destruct (Nat.eqb_spec o o1) as [->|]; [congruence|]. cbn [length]. lia.
Qed.
Lemma view_reg x o : reachable x -> ao_view (c_s x) o <> [] -> registered (c_s x) o = true.
Proof.
  intros H Hv. pose proof (ki_q _ _ _ _ _ _ _ _ _ (ci_k _ _ _ _ _ _ _ _ (RI x H))) as HQ.
  unfold ao_view in Hv. apply registered_reg. destruct (nth_error (k_ao (c_s x)) o) as [a|] eqn:Ho; [|congruence].
  exists a. split; [reflexivity|]. unfold reg.
  destruct (nth_error (k_sp (c_s x)) (N.to_nat (ao_prio a))) as [[o'|]|] eqn:Es.
  - destruct (Nat.eq_dec o' o) as [->|Hne]; [reflexivity|exfalso]. apply Hv, q_view_nil.
    eapply (kq_off _ _ _ _ _ _ _ _ HQ); [exact Ho|]. unfold reg. rewrite Es. congruence.
  - exfalso. apply Hv, q_view_nil. eapply (kq_off _ _ _ _ _ _ _ _ HQ); [exact Ho|]. unfold reg. rewrite Es. discriminate.
  - exfalso. apply Hv, q_view_nil. eapply (kq_off _ _ _ _ _ _ _ _ HQ); [exact Ho|]. unfold reg. rewrite Es. discriminate.
Qed.
Lemma log_none o l : fold_left (log_step o) l None = None.
Proof. induction l as [|x t IH]; [reflexivity|exact IH]. Qed.
(** An event dispatched by a step was waiting before. *)
Lemma disp_front x ch x' o e : reachable x -> cstep c statics x ch = Ok x' ->
  In (EU (UDispatch o e)) (skipn (length (c_log x)) (c_log x')) ->
  exists t, ao_view (c_s x) o = e :: t /\ exists k, c_log x' = c_log x ++ [EL (KGet o e); EU (UDispatch o e)] /\
    c_stk x' = [mkF (f_isr (hd (mkF false [] (Ret 0)) (c_stk x))) (fold_left led_step [KGet o e] (f_led (hd (mkF false [] (Ret 0)) (c_stk x)))) (User (UDispatch o e) k)].
Proof.
  intros H E Hi. pose proof (starts_alone _ _ _ _ _ H E Hi) as (Hl & _).
  pose proof (reach_step _ _ _ _ _ _ _ _ _ H E) as H'.
  destruct (reach_cases x ch x' H E) as [(_ & El)|(top & stk & labs & p' & (A1 & (_ & _ & B) & A3) & _)].
  - rewrite El, skipn_all in Hi. destruct Hi.
  - pose proof (in_order _ _ _ _ _ _ _ SO x' o H') as Hq. rewrite A3 in Hi, Hq. cbn [c_log c_s] in Hi, Hq.
    rewrite skipn_app_len in Hi. apply in_app_iff in Hi.
    destruct Hi as [Hi|Hi]; [apply in_map_iff in Hi; destruct Hi as (? & ? & _); discriminate|].
    destruct p' as [v|f0|u k]; [destruct Hi|destruct Hi|]. destruct Hi as [Hi|[]]. injection Hi as ->.
    rewrite (B _ _ _ eq_refl) in *. unfold log_queue in Hq. rewrite fold_left_app in Hq.
    pose proof (in_order _ _ _ _ _ _ _ SO x o H) as Hq0. unfold log_queue in Hq0. rewrite Hq0 in Hq.
    cbn [map app user_of fold_left log_step] in Hq. rewrite Nat.eqb_refl in Hq.
    destruct (ao_view (c_s x) o) as [|y t]; [discriminate|]. destruct (N.eqb_spec y e) as [->|]; [|discriminate].
    exists t. split; [reflexivity|]. exists k. rewrite A3. cbn [c_log c_stk]. split; [reflexivity|].
    rewrite A1 in Hl |- *. destruct stk; [reflexivity|cbn in Hl; lia].
Qed.
Lemma init_first x o e pre post : reachable x -> c_log x = pre ++ EU (UDispatch o e) :: post ->
  init_count o pre = S (off_count o pre).
Proof.
  intros H. revert x H pre post.
  apply (reach_ind (fun x => forall pre post, c_log x = pre ++ EU (UDispatch o e) :: post -> init_count o pre = S (off_count o pre))).
  - intros s _ pre post E. destruct pre; discriminate.
  - intros x ch x' H IH E pre post El. pose proof (reach_step _ _ _ _ _ _ _ _ _ H E) as H'.
    destruct (le_lt_dec (length (c_log x)) (length pre)) as [Hle|Hlt].
    + assert (Hx : exists m, pre = c_log x ++ m).
      { destruct (reach_cases x ch x' H E) as [(_ & El')|(top & stk & labs & p' & (_ & _ & A3) & _)].
        - exists []. rewrite El' in El. apply (f_equal (@length entry)) in El. rewrite app_length in El. cbn in El. lia.
        - exists (skipn (length (c_log x)) pre). rewrite <- (firstn_skipn (length (c_log x)) pre) at 1. f_equal.
          rewrite A3 in El. cbn [c_log] in El. apply (f_equal (firstn (length (c_log x)))) in El.
          rewrite !firstn_app in El. replace (length (c_log x) - length pre)%nat with 0%nat in El by lia.
          rewrite Nat.sub_diag, firstn_all in El. cbn [firstn] in El. rewrite !app_nil_r in El. now symmetry. }
      destruct Hx as [m ->]. assert (Hi : In (EU (UDispatch o e)) (skipn (length (c_log x)) (c_log x'))).
      { rewrite El, <- app_assoc, skipn_app_len. apply in_app_iff. right. now left. }
      destruct (disp_front _ _ _ _ _ H E Hi) as (t & Hv & k & El' & _). rewrite El', <- app_assoc in El. apply app_inv_head in El.
      assert (Hm : m = [EL (KGet o e)]).
      { destruct m as [|y m]; [discriminate|]. injection El as <- El. destruct m as [|z m]; [reflexivity|].
        injection El as _ El. now destruct m. }
      assert (Hr : registered (c_s x) o = true) by (apply view_reg; [exact H|rewrite Hv; discriminate]).
      pose proof (init_reg x H o) as Hc. rewrite Hr in Hc. rewrite init_count_app, off_count_app, Hm. cbn [init_count off_count filter length]. lia.
    + assert (Hx : exists m, c_log x' = c_log x ++ m).
      { destruct (reach_cases x ch x' H E) as [(_ & El')|(top & stk & labs & p' & (_ & _ & A3) & _)].
        - exists []. now rewrite app_nil_r. - eexists. rewrite A3. reflexivity. }
      destruct Hx as [m Em]. rewrite Em in El.
      assert (Hx : c_log x = pre ++ EU (UDispatch o e) :: firstn (length (c_log x) - S (length pre)) post).
      { apply (f_equal (firstn (length (c_log x)))) in El. rewrite !firstn_app in El.
        rewrite Nat.sub_diag, firstn_all in El. cbn [firstn] in El. rewrite app_nil_r in El.
        rewrite (firstn_all2 pre) in El by lia.
        replace (length (c_log x) - length pre)%nat with (S (length (c_log x) - S (length pre))) in El by lia. exact El. }
      now apply IH in Hx.
Qed.

(** ** Signals *)
Lemma sig_keeps x ch x' e : reachable x -> cstep c statics x ch = Ok x' ->
  (0 < holders (c_s x) (led_all x) e)%nat -> (0 < holders (c_s x') (led_all x') e)%nat ->
  sig_of (c_s x') e = sig_of (c_s x) e.
Proof.
  intros H E Hh Hh'. pose proof (reach_step _ _ _ _ _ _ _ _ _ H E) as H'.
  destruct (reach_cases x ch x' H E) as [(Es & _)|(top & stk & labs & p' & (A1 & (A2 & _) & A3) & _)]; [now rewrite Es|].
  destruct (proj1 (no_use_after_free _ _ _ _ _ _ _ SO x H) e (or_intror (or_intror Hh))) as ((sig & n & p & Em) & _).
  unfold sig_of. rewrite Em. destruct (A2 _ _ _ _ Em) as [(n' & p1 & E')|[(l & E')|(i & El)]].
  - now rewrite E'.
  - destruct (proj1 (no_use_after_free _ _ _ _ _ _ _ SO x' H') e (or_intror (or_intror Hh'))) as ((? & ? & ? & Em') & _). congruence.
  - destruct (proj2 (refcount _ _ _ _ _ _ _ SO x' H') e) as (Hz & _); [|lia].
    rewrite A3, El. unfold led_all. cbn [c_stk map concat f_led fold_left led_step]. now left.
Qed.
Lemma held_view s l o e : In e (ao_view s o) -> (0 < holders s l e)%nat.
Proof.
  intros H. unfold holders. assert (Hi : In e (all_queued s)).
  { apply in_all_queued. left. unfold ao_view in H. destruct (nth_error (k_ao s) o) as [a|] eqn:Ho; [|destruct H]. exists o, a. auto. }
  apply (count_occ_In N.eq_dec) in Hi. lia.
Qed.
Lemma log_in o l : forall q q' e, fold_left (log_step o) l (Some q) = Some q' -> In e q -> In e q' \/ In (EU (UDispatch o e)) l.
Proof.
  induction l as [|x t IH]; intros q q' e H Hi; cbn [fold_left] in H; [injection H as <-; auto|].
  destruct (log_step o (Some q) x) as [q1|] eqn:E1; [|rewrite log_none in H; discriminate].
  assert (Hs : In e q1 \/ x = EU (UDispatch o e)).
  { cbn [log_step] in E1. destruct x as [[]|[]]; try (injection E1 as <-; auto).
    - destruct (Nat.eqb o o0); injection E1 as <-; [|auto]. left. destruct lifo; [now right|apply in_app_iff; auto].
    - destruct (Nat.eqb_spec o o0) as [<-|]; [|injection E1 as <-; auto]. destruct q as [|y q]; [discriminate|].
      destruct (N.eqb_spec y e0) as [->|]; [|discriminate]. injection E1 as <-. destruct Hi as [->|Hi]; auto. }
  destruct Hs as [Hs| ->]; [|right; now left]. destruct (IH _ _ _ H Hs); [auto|right; now right].
Qed.
Lemma sig_eqb_refl g : sig_eqb g g = true.
Proof. destruct g; cbn; [apply N.eqb_refl|reflexivity]. Qed.
Lemma sig_fold s o l : forall q q', fold_left (log_step o) l (Some q) = Some q' ->
  fold_left (sig_step o) (concat (map (obs_of s) l)) (Some (map (sig_of s) q)) = Some (map (sig_of s) q').
Proof.
  induction l as [|x t IH]; intros q q' H; cbn [fold_left map concat] in *; [now injection H as <-|].
  destruct (log_step o (Some q) x) as [q1|] eqn:E1; [|rewrite log_none in H; discriminate].
  rewrite fold_left_app. replace (fold_left (sig_step o) (obs_of s x) (Some (map (sig_of s) q))) with (Some (map (sig_of s) q1)); [now apply IH|].
  symmetry. cbn [log_step] in E1. destruct x as [[]|[]]; cbn [obs_of fold_left sig_step]; try (injection E1 as <-; reflexivity).
  - destruct (Nat.eqb o o0); injection E1 as <-; [|reflexivity]. destruct lifo; [reflexivity|]. now rewrite map_app.
  - destruct (Nat.eqb o o0); [|now injection E1 as <-]. destruct q as [|y q]; [discriminate|].
    destruct (N.eqb_spec y e) as [->|]; [|discriminate]. injection E1 as <-. cbn [map]. now rewrite sig_eqb_refl.
Qed.
Lemma log_grows x ch x' : reachable x -> cstep c statics x ch = Ok x' -> exists m, c_log x' = c_log x ++ m.
Proof.
  intros H E. destruct (reach_cases x ch x' H E) as [(_ & El')|(top & stk & labs & p' & (_ & _ & A3) & _)].
  - exists []. now rewrite app_nil_r.
  - eexists. rewrite A3. reflexivity.
Qed.
Lemma sig_one x ch x' o w : reachable x -> cstep c statics x ch = Ok x' ->
  sig_queue o w = Some (map (sig_of (c_s x)) (ao_view (c_s x) o)) ->
  sig_queue o (w ++ news x x') = Some (map (sig_of (c_s x')) (ao_view (c_s x') o)).
Proof.
  intros H E Hw. pose proof (reach_step _ _ _ _ _ _ _ _ _ H E) as H'.
  unfold sig_queue in *. rewrite fold_left_app, Hw. unfold news. destruct (log_grows _ _ _ H E) as [m Em].
  pose proof (in_order _ _ _ _ _ _ _ SO x o H) as Hq. pose proof (in_order _ _ _ _ _ _ _ SO x' o H') as Hq'.
  unfold log_queue in Hq, Hq'. rewrite Em, fold_left_app, Hq in Hq'.
  replace (map (sig_of (c_s x)) (ao_view (c_s x) o)) with (map (sig_of (c_s x')) (ao_view (c_s x) o)).
  - apply sig_fold. now rewrite Em, skipn_app_len.
  - apply map_ext_in. intros e He. eapply sig_keeps; [exact H|exact E|eapply held_view; eauto|].
    destruct (log_in _ _ _ _ _ Hq' He) as [Hi|Hi]; [eapply held_view; eauto|].
    destruct (disp_front x ch x' o e H E) as (_ & _ & k & _ & Es); [now rewrite Em, skipn_app_len|].
    unfold holders, led_all. rewrite Es. cbn [map concat f_led fold_left led_step app]. unfold cnt.
    rewrite count_occ_cons_eq by reflexivity. lia.
Qed.
Lemma orun_inv chs : forall x w0 y w, reachable x ->
  (forall o, sig_queue o w0 = Some (map (sig_of (c_s x)) (ao_view (c_s x) o))) ->
  orun c statics x chs = Ok (y, w) ->
  reachable y /\ forall o, sig_queue o (w0 ++ w) = Some (map (sig_of (c_s y)) (ao_view (c_s y) o)).
Proof.
  induction chs as [|ch chs IH]; intros x w0 y w H Hw E; cbn [orun] in E.
  - injection E as <- <-. rewrite app_nil_r. auto.
  - binv E. rename x0 into x1. binv E. destruct x0 as [y1 w1]. injection E as <- <-. rewrite app_assoc.
    eapply IH; [eapply reach_step; eauto| |eassumption]. intros o. eapply sig_one; eauto.
Qed.
Lemma orun_crun chs : forall x y, crun c statics x chs = Ok y -> exists w, orun c statics x chs = Ok (y, w).
Proof.
  induction chs as [|ch chs IH]; intros x y E; cbn [crun orun] in *; [injection E as <-; eauto|].
  binv E. rewrite E0. cbn [bind]. destruct (IH _ _ E) as [w ->]. cbn [bind]. eauto.
Qed.
Lemma start_reach s : start c mem0 prios dqs pools = Ok s -> reachable (conf0 s).
Proof. intros E. exists s, []. auto. Qed.
Lemma orun_ok s chs x w : start c mem0 prios dqs pools = Ok s -> orun c statics (conf0 s) chs = Ok (x, w) ->
  forall o, sig_queue o w = Some (map (sig_of (c_s x)) (ao_view (c_s x) o)).
Proof.
  intros Es E. eapply (orun_inv chs (conf0 s) []); [apply start_reach; exact Es| |exact E].
  intros o. pose proof (in_order _ _ _ _ _ _ _ SO _ o (start_reach s Es)) as Hq. cbn in Hq. injection Hq as Hq.
  cbn [conf0 c_s] in *. rewrite <- Hq. reflexivity.
Qed.
End Q.

Lemma sigq_snoc o w x : sig_queue o (w ++ [x]) = sig_step o (sig_queue o w) x.
Proof. unfold sig_queue. now rewrite fold_left_app. Qed.
Lemma sent_app o w w' : sent o (w ++ w') = sent o w ++ sent o w'.
Proof. unfold sent. now rewrite map_app, concat_app. Qed.
Lemma handled_app o w w' : handled o (w ++ w') = handled o w ++ handled o w'.
Proof. unfold handled. now rewrite map_app, concat_app. Qed.
Lemma sig_eqb_eq a b : sig_eqb a b = true -> a = b.
Proof. destruct a, b; cbn; try discriminate; auto. intros H. apply N.eqb_eq in H. now subst. Qed.
Lemma sig_perm o w q : sig_queue o w = Some q -> Permutation (sent o w) (handled o w ++ q).
Proof.
  revert q. induction w as [|x w IH] using rev_ind; intros q; [intros E; injection E as <-; constructor|].
  rewrite sigq_snoc, sent_app, handled_app. destruct (sig_queue o w) as [q0|]; [|discriminate]. specialize (IH q0 eq_refl).
  destruct x as [lifo o' g|o' g|o']; cbn [sig_step]; unfold sent at 2, handled at 2; cbn [map concat].
  - destruct (Nat.eqb o o'); rewrite ?app_nil_r; intros E; injection E as <-; [|exact IH]. rewrite IH. destruct lifo.
    + rewrite <- app_assoc. apply Permutation_app_head. symmetry. apply Permutation_cons_append.
    + now rewrite app_assoc.
  - destruct (Nat.eqb o o'); rewrite ?app_nil_r; [|intros E; injection E as <-; exact IH].
    destruct q0 as [|y t]; [discriminate|]. destruct (sig_eqb g y) eqn:Eg; [|discriminate]. apply sig_eqb_eq in Eg. subst y.
    intros E; injection E as <-. rewrite <- app_assoc. exact IH.
  - rewrite !app_nil_r. intros E; injection E as <-. exact IH.
Qed.
Lemma sig_fifo o w q : fifo_only o w -> sig_queue o w = Some q -> sent o w = handled o w ++ q.
Proof.
  revert q. induction w as [|x w IH] using rev_ind; intros q Hn; [intros E; injection E as <-; reflexivity|].
  rewrite sigq_snoc, sent_app, handled_app.
  assert (Hn' : fifo_only o w) by (intros g Hg; apply (Hn g), in_app_iff; auto).
  destruct (sig_queue o w) as [q0|]; [|discriminate]. specialize (IH q0 Hn' eq_refl).
  destruct x as [lifo o' g|o' g|o']; cbn [sig_step]; unfold sent at 2, handled at 2; cbn [map concat].
  - destruct (Nat.eqb_spec o o') as [<-|]; rewrite ?app_nil_r; intros E; injection E as <-; [|exact IH].
    destruct lifo; [exfalso; apply (Hn g), in_app_iff; right; now left|]. now rewrite IH, app_assoc.
  - destruct (Nat.eqb o o'); rewrite ?app_nil_r; [|intros E; injection E as <-; exact IH].
    destruct q0 as [|y t]; [discriminate|]. destruct (sig_eqb g y) eqn:Eg; [|discriminate]. apply sig_eqb_eq in Eg. subst y.
    intros E; injection E as <-. rewrite <- app_assoc. exact IH.
  - rewrite !app_nil_r. intros E; injection E as <-. exact IH.
Qed.

(** ** Applications *)
Definition one (ob : smobj) (k : nat) (r : res dyn) (g : option N) : res dyn :=
  do d <- r; do (d', _) <- dispatch (ob_c ob) (ob_M ob) (ob_grd ob) (ob_fuel ob) (ob_ist ob) (ob_iact ob) d
                             (mkEv (match g with Some v => v | None => 0 end)
                                   (2 + match g with Some v => v | None => 0 end)) (ob_ars ob k); Ok d'.
Lemma alone_snoc ob g l : forall k r, alone_from ob k r (l ++ [g]) = one ob (k + length l) (alone_from ob k r l) g.
Proof.
  induction l as [|h t IH]; intros k r; cbn [app alone_from length].
  - now rewrite Nat.add_0_r.
  - rewrite IH. f_equal. lia.
Qed.
Lemma started_app o w w' : is_started o (w ++ w') = is_started o w || is_started o w'.
Proof. unfold is_started. apply existsb_app. Qed.

Section A.
Context (c : kcfg) (mem0 : @mem cell) (statics : list (N * N)) (prios : list N)
  (dqs : list (list (option N) * nat)) (pools : list (N * N * N)) (rs : list N) (obj : nat -> smobj).
Context (SO : sys_ok c mem0 statics prios dqs pools rs).
Notation reachable := (reachable c mem0 statics prios dqs pools).

Lemma live_hdr x e : reachable x -> (0 < holders (c_s x) (led_all x) e)%nat ->
  exists sig n p, hdr_rd (k_mem (c_s x)) e = Ok (sig, n, p) /\ sig_of (c_s x) e = Some sig.
Proof.
  intros H Hh. destruct (proj1 (no_use_after_free _ _ _ _ _ _ _ SO x H) e (or_intror (or_intror Hh))) as ((sig & n & p & Em) & _).
  exists sig, n, p. unfold sig_of. rewrite Em. split; [|reflexivity]. apply hdr_rd_ok; [|exact Em].
  pose proof (ki_mem _ _ _ _ _ _ _ _ _ (ci_k _ _ _ _ _ _ _ _ (reach_inv _ _ _ _ _ _ _ SO x H))) as HM.
  destruct (km_T _ _ _ _ _ _ _ _ _ _ HM e) as [Hs|[i Hi]]; [rewrite tot_holders; exact Hh| |].
  - destruct Hs as [sg Hs]. now apply (so_static _ _ _ _ _ _ _ SO) in Hs.
  - eapply (pb_nz _ _ _ (OK _ _ _ _ _ _ _ SO)); eauto.
Qed.

Record Inv (x : conf) (w : list obs) (ms : machines) : Prop := {
  iv_st : forall o, is_started o w = negb (init_count o (c_log x) =? 0)%nat;
  iv_h : forall o, is_started o w = false -> handled o w = [];
  iv_some : forall o g, In g (handled o w) -> g <> None;
  iv_ms : forall o, off_count o (c_log x) = 0%nat -> ms o = if is_started o w then (S (length (handled o w)), alone (obj o) (handled o w)) else machines0 o }.

Lemma deliver_labs s labs : forall ms, fold_left (deliver obj s) (map EL labs) ms = ms.
Proof. induction labs as [|x t IH]; intros ms; [reflexivity|]. exact (IH ms). Qed.
Lemma obs_labs s labs : (forall o, is_started o (concat (map (obs_of s) (map EL labs))) = false) /\
  (forall o, handled o (concat (map (obs_of s) (map EL labs))) = []).
Proof.
  induction labs as [|x t [I1 I2]]; [split; reflexivity|]. split; intros o; cbn [map concat].
  - rewrite started_app, I1. destruct x; reflexivity.
  - rewrite handled_app, I2. destruct x; reflexivity.
Qed.
Lemma app_step x ch x' w ms : reachable x -> cstep c statics x ch = Ok x' -> Inv x w ms ->
  Inv x' (w ++ news x x') (fold_left (deliver obj (c_s x')) (skipn (length (c_log x)) (c_log x')) ms).
Proof.
  intros H E [I1 I2 I4 I3]. pose proof (reach_step _ _ _ _ _ _ _ _ _ H E) as H'. unfold news.
  destruct (reach_cases _ _ _ _ _ _ _ SO x ch x' H E) as [(_ & El)|(top & stk & labs & p' & (A1 & A2 & A3) & _)].
  { rewrite El, skipn_all. cbn [map concat fold_left]. rewrite app_nil_r. constructor; rewrite ?El; assumption. }
  assert (El : c_log x' = c_log x ++ map EL labs ++ user_of p') by (rewrite A3; reflexivity).
  rewrite El, skipn_app_len, fold_left_app, deliver_labs, map_app, concat_app.
  set (v := concat (map (obs_of (c_s x')) (map EL labs))) in *.
  destruct (obs_labs (c_s x') labs) as [V1 V2]. fold v in V1, V2.
  assert (Hoff : forall o, off_count o (c_log x') = 0%nat -> off_count o (c_log x) = 0%nat).
  { intros o. rewrite El, off_count_app. lia. }
  assert (Hsame : (forall o, is_started o (concat (map (obs_of (c_s x')) (user_of p'))) = false) ->
    (forall o, handled o (concat (map (obs_of (c_s x')) (user_of p'))) = []) ->
    (forall o, init_count o (user_of p') = 0%nat) ->
    fold_left (deliver obj (c_s x')) (user_of p') ms = ms ->
    Inv x' (w ++ v ++ concat (map (obs_of (c_s x')) (user_of p'))) (fold_left (deliver obj (c_s x')) (user_of p') ms)).
  { intros H1 H2 H3 H4. rewrite H4. constructor; intros o; rewrite ?started_app, ?handled_app, ?V1, ?V2, ?H1, ?H2, ?orb_false_r, ?app_nil_r.
    - rewrite I1, El, !init_count_app, init_count_labs, H3. now rewrite !Nat.add_0_r.
    - apply I2.
    - apply I4.
    - intros Ho. now apply I3, Hoff. }
  destruct p' as [r|f|u k]; cbn [user_of] in *; try (apply Hsame; reflexivity).
  destruct u as [o e| |o| |]; try (apply Hsame; reflexivity); clear Hsame; cbn [map concat obs_of fold_left deliver app].
  - (* dispatch *)
    assert (Hi : In (EU (UDispatch o e)) (skipn (length (c_log x)) (c_log x'))).
    { rewrite El, skipn_app_len. apply in_app_iff. right. now left. }
    destruct (disp_front _ _ _ _ _ _ _ SO _ _ _ _ _ H E Hi) as (t & Hv & k0 & _ & Es).
    assert (Hst : is_started o w = true).
    { rewrite I1. pose proof (init_reg _ _ _ _ _ _ _ SO x H o) as Hc.
      rewrite (view_reg _ _ _ _ _ _ _ SO x o H) in Hc by (rewrite Hv; discriminate). now rewrite Hc, Nat.add_1_r. }
    destruct (live_hdr x' e H') as (sig & n & p & Eh & Eg).
    { unfold holders, led_all. rewrite Es. cbn [map concat f_led fold_left led_step app]. unfold cnt.
      rewrite count_occ_cons_eq by reflexivity. lia. }
    rewrite Eg.
    assert (S1 : forall o', is_started o' (w ++ v ++ [Handled o (Some sig)]) = is_started o' w).
    { intros o'. rewrite !started_app, V1. cbn. now rewrite orb_false_r. }
    assert (S2 : forall o', handled o' (w ++ v ++ [Handled o (Some sig)]) = handled o' w ++ (if Nat.eqb o' o then [Some sig] else [])).
    { intros o'. rewrite !handled_app, V2. cbn. now rewrite app_nil_r. }
    constructor; intros o'; rewrite ?S1, ?S2.
    + rewrite I1, El, !init_count_app, init_count_labs. cbn. now rewrite Nat.add_0_r.
    + intros Hf. rewrite (I2 _ Hf). destruct (Nat.eqb_spec o' o) as [->|]; [congruence|reflexivity].
    + intros g Hg. apply in_app_iff in Hg. destruct Hg as [Hg|Hg]; [exact (I4 _ _ Hg)|].
      destruct (Nat.eqb o' o); [|destruct Hg]. destruct Hg as [<-|[]]. discriminate.
    + intros Ho. apply Hoff in Ho. unfold fupd. destruct (Nat.eqb_spec o' o) as [->|Hne].
      * rewrite ?Nat.eqb_refl, Hst. unfold sma_dispatch. rewrite (I3 o Ho), Hst. cbn [fst snd]. rewrite Eh. cbn [bind].
        rewrite app_length. cbn [length]. rewrite Nat.add_1_r. f_equal. unfold alone. rewrite alone_snoc. reflexivity.
      * rewrite app_nil_r. rewrite <- (I3 _ Ho). destruct (Nat.eqb_spec o o'); [congruence|reflexivity].
  - (* initial transition *)
    assert (Hst : off_count o (c_log x') = 0%nat -> is_started o w = false).
    { intros Ho. rewrite I1. pose proof (init_reg _ _ _ _ _ _ _ SO x' H' o) as Hc. rewrite Ho in Hc. rewrite El, !init_count_app, init_count_labs in Hc.
      unfold init_count at 2 in Hc. cbn in Hc. rewrite Nat.eqb_refl in Hc. cbn in Hc.
      destruct (registered (c_s x') o); replace (init_count o (c_log x)) with 0%nat by lia; reflexivity. }
    assert (S1 : forall o', is_started o' (w ++ v ++ [Started o]) = is_started o' w || Nat.eqb o' o).
    { intros o'. rewrite !started_app, V1. cbn. now rewrite orb_false_r. }
    assert (S2 : forall o', handled o' (w ++ v ++ [Started o]) = handled o' w).
    { intros o'. rewrite !handled_app, V2. cbn. now rewrite app_nil_r. }
    constructor; intros o'; rewrite ?S1, ?S2.
    + rewrite I1, El, !init_count_app, init_count_labs. unfold init_count at 3. cbn. destruct (Nat.eqb o' o); cbn.
      * rewrite Nat.add_1_r. cbn. now rewrite orb_true_r.
      * now rewrite Nat.add_0_r, orb_false_r.
    + intros Hf. apply orb_false_iff in Hf. now apply I2.
    + apply I4.
    + intros Ho. unfold fupd. destruct (Nat.eqb_spec o' o) as [->|Hne].
      * rewrite ?Nat.eqb_refl, orb_true_r. unfold sma_sm_init. rewrite (I3 o (Hoff _ Ho)), (Hst Ho), (I2 o (Hst Ho)). reflexivity.
      * rewrite orb_false_r, <- (I3 _ (Hoff _ Ho)). destruct (Nat.eqb_spec o o'); [congruence|reflexivity].
Qed.
Lemma arun_inv chs : forall x w0 ms y w, reachable x -> Inv x w0 ms -> orun c statics x chs = Ok (y, w) ->
  exists ms', arun c statics obj x ms chs = Ok (y, ms') /\ Inv y (w0 ++ w) ms'.
Proof.
  induction chs as [|ch chs IH]; intros x w0 ms y w H HI E; cbn [orun arun] in *.
  - injection E as <- <-. exists ms. rewrite app_nil_r. auto.
  - apply bind_inv in E. destruct E as [x1 E1 E]. rewrite E1. cbn [bind].
    apply bind_inv in E. destruct E as [[y1 w1] E2 E]. injection E as <- <-. rewrite app_assoc.
    eapply IH; [eapply reach_step; eauto| |exact E2]. now apply app_step with (ch := ch).
Qed.
Lemma arun_ok s chs x w : start c mem0 prios dqs pools = Ok s -> orun c statics (conf0 s) chs = Ok (x, w) ->
  exists ms, arun c statics obj (conf0 s) machines0 chs = Ok (x, ms) /\
    (forall o, off_count o (c_log x) = 0%nat -> ms o = if is_started o w then (S (length (handled o w)), alone (obj o) (handled o w)) else machines0 o) /\
    forall o g, In g (handled o w) -> g <> None.
Proof.
  intros Es E. destruct (arun_inv chs (conf0 s) [] machines0 x w) as (ms & Em & HI); auto.
  - apply (start_reach c mem0 statics prios dqs pools s Es).
  - constructor; try reflexivity. intros o g [].
  - exists ms. split; [exact Em|]. split; apply HI.
Qed.
End A.
