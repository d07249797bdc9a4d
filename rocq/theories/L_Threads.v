(** Proofs: the kernel under every interleaving of threads. *)
From Verif Require Import Base L_Base M_RdyGrp S_RdyGrp L_RdyGrp M_Queue S_Queue L_Queue
  M_MemPool S_MemPool L_MemPool M_Kernel S_Kernel L_KMem L_KQueue L_Kernel L_KRun M_Threads S_Threads.
Local Open Scope N_scope.

(** *** What the other threads may do, and what a thread does *)
Definition rely (own : nat -> Prop) (act : bool) (s s' : kst) : Prop :=
  (forall p o, nth_error (k_sp s) p = Some (Some o) -> nth_error (k_sp s') p = Some (Some o)) /\
  (forall o a, nth_error (k_ao s) o = Some a -> exists a', nth_error (k_ao s') o = Some a' /\
     ao_prio a' = ao_prio a /\
     (own o -> reg (k_sp s) a o -> incl (q_view (ao_q a)) (q_view (ao_q a'))) /\
     (act = true -> ~ reg (k_sp s) a o -> a' = a)) /\
  (act = true -> k_sp s' = k_sp s).
Definition guar (own : nat -> Prop) (act : bool) (s s' : kst) : Prop :=
  (forall p o, nth_error (k_sp s) p = Some (Some o) -> nth_error (k_sp s') p = Some (Some o)) /\
  (forall o a, nth_error (k_ao s) o = Some a -> exists a', nth_error (k_ao s') o = Some a' /\
     ao_prio a' = ao_prio a /\
     (~ own o -> reg (k_sp s) a o -> incl (q_view (ao_q a)) (q_view (ao_q a'))) /\
     (act = false -> ~ reg (k_sp s) a o -> a' = a)) /\
  (act = false -> k_sp s' = k_sp s).

Lemma guar_rely (own : nat -> Prop) act (own' : nat -> Prop) act' s s' : guar own act s s' ->
  (forall o, own' o -> own o -> False) -> (act = false \/ act' = false) -> rely own' act' s s'.
Proof.
  intros (G1 & G2 & G3) Ho Ha. split; [exact G1|]. split.
  - intros o a Hoa. destruct (G2 o a Hoa) as (a' & H1 & H2 & H3 & H4). exists a'. split; [exact H1|]. split; [exact H2|].
    split.
    + intros E Hr. apply H3; [|exact Hr]. intros E'. exact (Ho o E E').
    + intros E Hr. apply H4; [|exact Hr]. destruct Ha; congruence.
  - intros E. apply G3. destruct Ha; congruence.
Qed.
Lemma sgrows_guar own s s' : sgrows s s' -> guar own false s s'.
Proof.
  intros (Hsp & HA & _). split; [intros p o H; now rewrite Hsp|]. split; [|auto].
  intros o a Ho. destruct (HA o a Ho) as (a' & H1 & H2 & H3 & H4). exists a'. auto.
Qed.
Lemma guar_same own act s s' : k_sp s' = k_sp s -> k_ao s' = k_ao s -> guar own act s s'.
Proof.
  intros E1 E2. split; [intros p o H; now rewrite E1|]. split; [|auto].
  intros o a Ho. exists a. rewrite E2. split; [exact Ho|]. split; [reflexivity|].
  split; [intros _ _; apply incl_refl|auto].
Qed.

(** Assertions of a thread about the shared state. *)
Definition assn := kst -> (litem -> nat) -> Prop.
Definition tt : assn := fun _ _ => True.
Definition stable (own : nat -> Prop) (act : bool) (J : assn) : Prop :=
  forall s s' lo, rely own act s s' -> J s lo -> J s' lo.
Lemma stable_tt own act : stable own act tt.
Proof. intros s s' lo _ _. exact I. Qed.

Section T.
Context (c : kcfg) (statics : list (N * N)) (PB : list (list N)) (m0 : @mem cell) (RS : list N) (prios : list N) (nd : nat).
Context (OK : pb_ok c statics PB).
Context (Hmax : 1 <= max_sma (q_rg (k_qc c)) <= 64) (Hasrt : q_asrt (k_qc c) = true).

Notation KInv := (KInv c statics PB m0 RS prios nd).
Notation safe := (safe c statics PB m0 RS prios nd).
Notation bnd := (bnd statics).
Notation evs := (evs c).
Notation ev := (ev c).

Definition rights (l : list litem) : list litem := filter is_right l.
Lemma cnt_rights l y : is_right y = true -> cnt (rights l) y = cnt l y.
Proof. apply cnt_filter. Qed.
Lemma KInv_rights s l env : KInv s (Lc (rights l) env) <-> KInv s (Lc l env).
Proof. split; apply KInv_ext; intros y Hy; unfold Lc; now rewrite cnt_rights. Qed.
Lemma bnd_rights s l env : bnd s (Lc (rights l) env) <-> bnd s (Lc l env).
Proof.
  unfold L_Kernel.bnd, tot, Lc. split; intros H a Ha; specialize (H a Ha); rewrite cnt_rights in * by reflexivity; exact H.
Qed.
Lemma rights_id l : (forall y, In y l -> is_right y = true) -> rights l = l.
Proof.
  induction l as [|y l IH]; intros H; [reflexivity|]. unfold rights in *. cbn [filter].
  rewrite (H y) by now left. f_equal. apply IH. intros z Hz. apply H. now right.
Qed.
Lemma in_rights y l : In y (rights l) <-> In y l /\ is_right y = true.
Proof. apply filter_In. Qed.
Lemma rights_app l l' : rights (l ++ l') = rights l ++ rights l'.
Proof. apply filter_app. Qed.

Inductive tsafe (own : nat -> Prop) : bool -> prog -> list litem -> assn -> Prop :=
| ts_ret act v led J : tsafe own act (Ret v) led J
| ts_user act u k led J : quiet k -> tsafe own false k led tt -> tsafe own act (User u k) led J
| ts_atom act f led J : stable own act J ->
    (forall s env lo, (forall x, lo x <= env x)%nat -> KInv s (Lc led env) -> bnd s (Lc led env) -> J s lo ->
       (forall flt, f s = Fault flt -> resource_fault flt) /\
       forall s' labs p', f s = Ok (s', labs, p') ->
         let led' := rights (fold_left led_step labs led) in
         (KInv s' (Lc led' env) /\ guar own act s s' /\ eff s labs p' s') /\
         exists J', J' s' lo /\ tsafe own act p' led' J') ->
    tsafe own act (Atom f) led J.

(** *** From the rules for one thread *)
(** The last section of a call. *)
Lemma lift_one own f led0 led J :
  safe true (Atom f) led0 -> rights led0 = led -> stable own false J -> (forall s lo, J s lo -> evs s lo led0) ->
  (forall s s' labs p', f s = Ok (s', labs, p') -> exists v, p' = Ret v) ->
  (forall labs, rights (fold_left led_step labs led0) = rights (fold_left led_step labs led)) ->
  tsafe own false (Atom f) led J.
Proof.
  intros HS <- Hst HJ Hret Hr. constructor; [exact Hst|]. intros s env lo Hlo HI Hb Hj.
  destruct (safe_atom_inv _ _ _ _ _ _ _ _ _ _ HS s env lo Hlo (proj1 (KInv_rights _ _ _) HI)
              (proj1 (bnd_rights _ _ _) Hb) (HJ _ _ Hj)) as [Hf Hs].
  split; [exact Hf|]. intros s' labs p' E. specialize (Hs s' labs p' E). cbn zeta in *.
  destruct Hs as ((K1 & K2 & K3 & K4) & K5). rewrite <- Hr. split.
  - split; [now apply KInv_rights|]. split; [apply sgrows_guar; auto|exact K4].
  - exists tt. split; [exact I|]. destruct (Hret _ _ _ _ E) as [v ->]. constructor.
Qed.

(** The rights after a step do not depend on the evidence before. *)
Lemma rights_rem1 x l : is_right x = true -> rights (rem1 x l) = rem1 x (rights l).
Proof.
  intros Hx. induction l as [|y l IH]; [reflexivity|]. cbn [rem1]. unfold rights in *. cbn [filter].
  destruct (litem_dec x y) as [<-|Hne].
  - rewrite Hx. cbn [rem1]. destruct (litem_dec x x); [reflexivity|congruence].
  - destruct (is_right y) eqn:Ey; cbn [filter]; rewrite Ey; [|exact IH].
    cbn [rem1]. destruct (litem_dec x y); [congruence|]. now f_equal.
Qed.
Lemma rights_twice l : rights (rights l) = rights l.
Proof. apply rights_id. intros y Hy. now apply in_rights in Hy. Qed.
Lemma rights_nolive l : rights (filter (fun x => match x with LLive _ => false | _ => true end) l) = rights l.
Proof.
  induction l as [|y l IH]; [reflexivity|]. unfold rights in *. destruct y; cbn [filter is_right]; rewrite ?IH; reflexivity.
Qed.
Lemma rights_cons y l : rights (y :: l) = if is_right y then y :: rights l else rights l.
Proof. reflexivity. Qed.
Lemma rights_step l x : rights (led_step l x) = rights (led_step (rights l) x).
Proof.
  destruct x; cbn [led_step]; rewrite ?rights_cons; cbn [is_right];
    try fold (rights l); try fold (rights (rights l));
    rewrite ?(rights_rem1 _ l), ?(rights_rem1 _ (rights l)), ?rights_nolive, ?rights_twice by reflexivity; reflexivity.
Qed.
Lemma rights_fold labs : forall l, rights (fold_left led_step labs l) = rights (fold_left led_step labs (rights l)).
Proof.
  induction labs as [|x labs IH]; intros l; cbn [fold_left]; [now rewrite rights_twice|].
  rewrite IH, rights_step, <- IH. reflexivity.
Qed.

(** Calls that need no evidence on the way. *)
Definition plain_lab (x : klab) : Prop :=
  match x with KPut _ _ _ | KDefer _ _ | KSel _ | KInit _ => False | _ => True end.
Inductive plain : prog -> Prop :=
| pl_ret v : plain (Ret v)
| pl_atom f : (forall s s' labs p', f s = Ok (s', labs, p') -> Forall plain_lab labs /\ plain p') -> plain (Atom f).

Lemma plain_led labs : Forall plain_lab labs -> forall led, (forall y, In y led -> is_right y = true) ->
  forall y, In y (fold_left led_step labs led) -> is_right y = true.
Proof.
  induction 1 as [|x labs Hx _ IH]; intros led Hl; cbn [fold_left]; [exact Hl|]. apply IH.
  intros y Hy. destruct x; cbn [led_step plain_lab] in *; try contradiction;
    try (destruct Hy as [<-|Hy]; [reflexivity|]);
    try (apply in_rem1 in Hy; now apply Hl);
    try (apply filter_In in Hy; apply Hl; apply Hy); now apply Hl.
Qed.

Lemma lift_plain own p led : safe true p led -> plain p -> (forall y, In y led -> is_right y = true) ->
  tsafe own false p led tt.
Proof.
  revert p led. fix IH 3. intros p led H Hp Hl. destruct H as [v led|u p led Hr Hu H|f led H].
  - constructor.
  - inversion Hp.
  - constructor; [apply stable_tt|]. intros s env lo Hlo HI Hb _.
    assert (He : evs s lo led).
    { intros y Hy. specialize (Hl y Hy). destruct y; try exact I; discriminate. }
    specialize (H s env lo Hlo HI Hb He). destruct H as [Hf Hs]. split; [exact Hf|].
    intros s' labs p' E. specialize (Hs s' labs p' E). cbn zeta in *. destruct Hs as ((K1 & K2 & K3 & K4) & K5).
    assert (Hpl : Forall plain_lab labs /\ plain p') by (inversion Hp as [|f0 Hf0]; subst; eauto).
    destruct Hpl as [P1 P2].
    assert (Hl' : forall y, In y (fold_left led_step labs led) -> is_right y = true) by (apply plain_led; assumption).
    rewrite (rights_id _ Hl'). split.
    + split; [exact K1|]. split; [apply sgrows_guar; auto|exact K4].
    + exists tt. split; [exact I|]. apply IH; assumption.
Qed.

Lemma plain_gc e : plain (fwk_gc c e).
Proof.
  constructor. intros s s' labs p' E. destruct (hdr_rd (k_mem s) e) as [[[sig nref] pool]|]; [|discriminate].
  cbn [bind] in E. injection E as <- <- <-. split; [constructor|]. destruct (nref =? 0); [constructor|].
  constructor. clear. intros s s' labs p' E. destruct (hdr_rd (k_mem s) e) as [[[sig nref] pool]|]; [|discriminate].
  cbn [bind] in E. destruct (1 <? nref).
  - destruct (hdr_wr (k_mem s) e sig (nref - 1) pool); [|discriminate]. cbn [bind] in E. injection E as <- <- <-.
    split; [repeat constructor|constructor].
  - cbv zeta in E. destruct (rassert _ _ _); [|discriminate]. cbn [bind] in E.
    destruct (rd (k_mgr s) _) as [ep|]; [|discriminate]. cbn [bind] in E. injection E as <- <- <-.
    split; [destruct ep; repeat constructor|]. constructor. clear. intros s s' labs p' E.
    destruct (evtPool_put c s ep e); [|discriminate]. cbn [bind] in E. injection E as <- <- <-.
    split; [destruct ep; repeat constructor|constructor].
Qed.
Lemma plain_ae es sig : plain (fwk_ae c es sig).
Proof.
  constructor. intros s s' labs p' E. destruct (ae_find _ _ _ _ _) as [i|]; [|discriminate]. cbn [bind] in E.
  destruct (rassert _ _ _); [|discriminate]. cbn [bind] in E. destruct (rd (k_mgr s) i) as [ep|]; [|discriminate].
  cbn [bind] in E. injection E as <- <- <-. split; [constructor|]. constructor. clear. intros s s' labs p' E.
  destruct (evtPool_get c s ep) as [[s1 evt]|]; [|discriminate]. cbn [bind] in E.
  destruct (rassert _ _ _); [|discriminate]. cbn [bind] in E. injection E as <- <- <-.
  split; [destruct ep; repeat constructor|]. constructor. clear. intros s s' labs p' E.
  destruct (hdr_wr _ _ _ _ _); [|discriminate]. cbn [bind] in E. injection E as <- <- <-.
  split; [destruct ep; repeat constructor|constructor].
Qed.
Lemma plain_pseq p n : plain p -> plain (pseq p (fun _ => Ret n)).
Proof.
  revert p. fix IH 2. intros p H. destruct H as [v|f H]; cbn [pseq]; [constructor|]. constructor.
  intros s s' labs p' E. destruct (f s) as [[[s1 l1] p1]|] eqn:Ef; [|discriminate]. injection E as <- <- <-.
  specialize (H s s1 l1 p1 Ef). destruct H as [H1 H2]. split; [exact H1|apply IH; exact H2].
Qed.

(** *** Evidence that other threads cannot take away *)
Definition tev (s : kst) (lo : litem -> nat) (x : litem) : Prop :=
  match x with LLive e => (0 < lo (LRef e))%nat | _ => ev s lo x end.
Definition Jev (l : list litem) : assn := fun s lo => forall y, In y l -> tev s lo y.
Lemma Jev_evs l s lo : Jev l s lo -> evs s lo l.
Proof. intros H y Hy. specialize (H y Hy). destruct y; cbn [tev L_Kernel.ev] in *; auto. Qed.
Definition firm (act : bool) (y : litem) : Prop :=
  match y with LSel _ => False | LAct _ | LActd _ => act = true | _ => True end.

Lemma rely_reg own act s s' a a' o : rely own act s s' -> ao_prio a' = ao_prio a -> reg (k_sp s) a o -> reg (k_sp s') a' o.
Proof. intros (R1 & _) E Hr. unfold reg in *. rewrite E. auto. Qed.
Lemma stable_Jev own act l : (forall y, In y l -> firm act y) -> stable own act (Jev l).
Proof.
  intros Hf s s' lo HR HJ y Hy. specialize (HJ y Hy). specialize (Hf y Hy). pose proof HR as (R1 & R2 & R3).
  destruct y as [| | | |e|o|o|o|o]; cbn [tev L_Kernel.ev firm] in *; auto; try contradiction.
  - destruct HJ as (a & Ho & Hr). destruct (R2 o a Ho) as (a' & Ho' & Hp & _). exists a'. split; [exact Ho'|].
    eapply rely_reg; eauto.
  - destruct HJ as (a & Ho & Hlt & Hs). destruct (R2 o a Ho) as (a' & Ho' & Hp & _). exists a'. rewrite Hp, (R3 Hf). auto.
  - destruct HJ as (a & Ho & Hg & Hv & Hr). destruct (R2 o a Ho) as (a' & Ho' & _ & _ & E).
    rewrite (E Hf Hr) in Ho'. exists a. rewrite (R3 Hf). auto.
Qed.

(** *** The calls *)
Definition ends (f : kst -> res (kst * list klab * prog)) : Prop :=
  forall s s' labs p', f s = Ok (s', labs, p') -> exists v, p' = Ret v.

Lemma lift_ev own f led0 : safe true (Atom f) led0 -> (forall y, In y led0 -> firm false y) -> ends f ->
  tsafe own false (Atom f) (rights led0) (Jev led0).
Proof.
  intros HS Hf He. eapply lift_one; [exact HS|reflexivity|apply stable_Jev; exact Hf|intros; now apply Jev_evs|exact He|].
  intros labs. apply rights_fold.
Qed.

Ltac okinv E :=
  repeat match type of E with
  | bind ?r _ = Ok _ => let X := fresh "X" in destruct r as [X|] eqn:?; [cbn [bind] in E|discriminate E];
      repeat match goal with Y : (_ * _)%type |- _ => destruct Y end
  end.

Lemma ends_post lifo o e : ends (fun s => do (s, l) <- post_sec c lifo s o e; Ok (s, l, Ret 0)).
Proof. intros s s' labs p' E. okinv E. injection E as <- <- <-. eauto. Qed.
Lemma ends_sub (b : bool) ch o : exists f, (if b then ps_subscribe c ch o else ps_unsubscribe c ch o) = Atom f /\ ends f.
Proof.
  destruct b; (eexists; split; [reflexivity|]); intros s s' labs p' E; okinv E; injection E as <- <- <-; eauto.
Qed.

Lemma tsafe_publish own ch e sender led0 :
  holds statics led0 e -> ch < N.of_nat (k_maxch c) -> ch < 256 -> (forall y, In y led0 -> firm false y) ->
  tsafe own false (ps_publish c ch e sender) (rights led0) (Jev led0).
Proof.
  intros H Hc1 Hc2 Hf0. constructor; [now apply stable_Jev|]. intros s env lo Hlo HI Hb HJ.
  apply (proj1 (KInv_rights _ _ _)) in HI. apply (proj1 (bnd_rights _ _ _)) in Hb. pose proof (Jev_evs _ _ _ HJ) as He.
  destruct (inc_ref_led c statics PB m0 RS prios nd OK Hmax Hasrt s env lo led0 e Hlo HI He H) as (m' & E & _ & HI').
  rewrite E. cbn [bind]. rewrite u8_small by lia. pose proof (ki_q _ _ _ _ _ _ _ _ _ HI') as HQ.
  destruct (nth_error (k_ch (set_mem s m')) (N.to_nat ch)) as [g|] eqn:Eg.
  2:{ apply nth_error_None in Eg. rewrite (kq_chlen _ _ _ _ _ _ _ _ HQ) in Eg. lia. }
  rewrite (proj2 (rd_ok _ _ _) Eg). cbn [bind].
  destruct (kq_ch _ _ _ _ _ _ _ _ HQ _ _ Eg) as [CS HR].
  rewrite (rg_traverse_rel (q_rg (k_qc c)) g CS) by auto.
  assert (Hg0 : sgrows s (set_mem s m')) by apply grows_refl.
  destruct (publish_fold c statics PB m0 RS prios nd OK Hmax Hasrt e sender env lo led0 Hlo
              (elements (max_sma (q_rg (k_qc c))) CS) (set_mem s m') [KInc e])
    as [(f & Ef & Hf)|(s2 & labs2 & E2 & K1 & K2 & K3 & K4 & K5 & K6)].
  - intros p Hp. now apply in_elements in Hp.
  - exact HI'.
  - cbn [fold_left led_step]. intros x [<-|Hx]; [exact I|]. apply in_rem1 in Hx.
    eapply ev_grows; [exact Hg0| |apply He; exact Hx]. auto.
  - now left.
  - rewrite Ef. cbn [bind]. split; [|discriminate]. intros flt Eflt. injection Eflt as <-. exact Hf.
  - rewrite E2. cbn [bind]. split; [discriminate|].
    intros s1 l1 p1 E1. apply ok3 in E1. destruct E1 as (<- & <- & <-). cbn zeta.
    rewrite <- (rights_fold ([KInc e] ++ labs2) led0).
    split; [split; [|split]|].
    + apply KInv_rights. exact K1.
    + apply sgrows_guar. eapply grows_trans; [exact Hg0|exact K4].
    + apply effl_eff; [|apply quiet_pseq; [apply quiet_atom|intros; apply quiet_ret]].
      apply (effl_app s [KInc e] (set_mem s m') labs2 s2); [intros ?; reflexivity|exact K5].
    + exists tt. split; [exact I|]. apply lift_plain.
      * apply safe_pseq; [intros; constructor|intros; apply quiet_ret|].
        apply safe_gc; try assumption. right; right. apply in_rights. split; [exact K3|reflexivity].
      * apply plain_pseq, plain_gc.
      * intros y Hy. now apply in_rights in Hy.
Qed.

(** Recall by the thread of the object. *)
Lemma tsafe_recall (own : nat -> Prop) o d : own o -> (d < nd)%nat -> tsafe own false (sma_recall c o d) [] (Jev [LReg o]).
Proof.
  intros Hown Hd. assert (Hfirm : forall y, In y [LReg o] -> firm false y) by (intros y [<-|[]]; exact I).
  pose proof (safe_recall c statics PB m0 RS prios nd OK Hmax Hasrt o d [LReg o] ltac:(now left) Hd) as HS.
  constructor; [now apply stable_Jev|]. intros s env lo Hlo HI Hb HJ.
  destruct (safe_atom_inv _ _ _ _ _ _ _ _ _ _ HS s env lo Hlo) as [Hf Hs].
  { apply KInv_rights. exact HI. } { apply bnd_rights. exact Hb. } { now apply Jev_evs. }
  split; [exact Hf|]. intros s' labs p' E. specialize (Hs s' labs p' E). cbn zeta in *.
  destruct Hs as ((K1 & _ & _ & K4) & K5). rewrite (rights_fold labs []). change (rights []) with (rights [LReg o]).
  rewrite <- rights_fold.
  destruct (rd (k_dq s) d) as [q|] eqn:E1; [|discriminate]. cbn [bind] in E.
  destruct (queue_get (k_qc c) q (k_rg s)) as [[[q1 g] e]|] eqn:E2; [|discriminate]. cbn [bind] in E.
  destruct (wr (k_dq s) d q1) as [l|] eqn:E3; [|discriminate]. cbn [bind] in E.
  split; [split; [|split; [|exact K4]]|].
  { apply KInv_rights. exact K1. }
  { destruct e; injection E as <- <- <-; apply guar_same; reflexivity. }
  destruct e as [e|]; injection E as <- <- <-.
  2:{ exists tt. split; [exact I|constructor]. }
  exists (Jev [LReg o]). split.
  { intros y [<-|[]]. exact (HJ (LReg o) (or_introl eq_refl)). }
  clear - K5 Hfirm OK Hmax Hasrt Hown. cbn [fold_left led_step filter] in *.
  change (rights [LRef e; LReg o]) with [LRef e].
  constructor; [now apply stable_Jev|]. intros s env lo Hlo HI Hb HJ.
  destruct (safe_atom_inv _ _ _ _ _ _ _ _ _ _ K5 s env lo Hlo) as [Hf Hs].
  { apply KInv_rights. exact HI. } { apply bnd_rights. exact Hb. }
  { intros y [<-|[<-|[]]]; [exact I|]. exact (HJ (LReg o) (or_introl eq_refl)). }
  split; [exact Hf|]. intros s' labs p' E. specialize (Hs s' labs p' E). cbn zeta in *.
  destruct Hs as ((K1 & K2 & K3 & K4) & K6).
  assert (HI0 : KInv s (Lc [LRef e; LReg o] env)) by (apply KInv_rights; exact HI).
  assert (He0 : evs s lo [LRef e; LReg o]).
  { intros y [<-|[<-|[]]]; [exact I|]. exact (HJ (LReg o) (or_introl eq_refl)). }
  destruct (HJ (LReg o) (or_introl eq_refl)) as (a & Ho & Hreg).
  destruct (post_led c statics PB m0 RS prios nd OK Hmax Hasrt true s env lo _ o a e Hlo HI0 He0
      ltac:(right; right; left; now left) Ho Hreg)
    as [Ep|(s2 & q' & Ep & _ & _ & Hg & Hao & Hv & _ & _ & Hsp & _)]; rewrite Ep in E; [discriminate|].
  cbn [bind] in E. injection E as <- <- <-.
  assert (Ho2 : nth_error (k_ao s2) o = Some (mkAo (ao_prio a) q')).
  { rewrite Hao. apply nth_upd_eq. eapply nth_some_lt; eauto. }
  cbn [fold_left led_step rem1] in *.
  assert (Er : rights (LLive e :: rem1 (LFresh e) [LRef e; LReg o]) = [LRef e]).
  { cbn [rem1]. repeat destruct litem_dec; try discriminate. reflexivity. }
  destruct (litem_dec (LFresh e) (LRef e)) as [|_]; [discriminate|].
  change (rights (LLive e :: LRef e :: [])) with [LRef e].
  split; [split; [|split; [|exact K4]]|].
  { apply KInv_rights in K1. cbn [rem1] in K1. revert K1.
    destruct (litem_dec (LFresh e) (LReg o)); [discriminate|]. exact (fun x => x). }
  { apply sgrows_guar. exact Hg. }
  set (J3 := fun (s : kst) (lo : litem -> nat) => exists a, nth_error (k_ao s) o = Some a /\ reg (k_sp s) a o /\
               In e (q_view (ao_q a))).
  exists J3. split.
  { exists (mkAo (ao_prio a) q'). split; [exact Ho2|]. split; [unfold reg in *; cbn [ao_prio]; now rewrite Hsp|].
    cbn [ao_q]. rewrite Hv. now left. }
  clear - K6 Er OK Hmax Hasrt Hown. cbn [rem1] in K6.
  destruct (litem_dec (LFresh e) (LRef e)) as [|_]; [discriminate|].
  destruct (litem_dec (LFresh e) (LReg o)) as [|_]; [discriminate|].
  constructor.
  { intros s s' lo HR (a & Ho & Hr & Hi). pose proof HR as (_ & R2 & _). destruct (R2 o a Ho) as (a' & Ho' & Hp & Hinc & _).
    exists a'. split; [exact Ho'|]. split; [eapply rely_reg; eauto|]. apply (Hinc Hown Hr). exact Hi. }
  intros s env lo Hlo HI Hb (a & Ho & Hr & Hi).
  destruct (safe_atom_inv _ _ _ _ _ _ _ _ _ _ K6 s env lo Hlo) as [Hf Hs].
  { apply KInv_rights. exact HI. } { apply bnd_rights. exact Hb. }
  { intros y [<-|[<-|[<-|[]]]]; [|exact I|exists a; auto]. left. apply in_all_queued. left. eauto. }
  split; [exact Hf|]. intros s' labs p' E. specialize (Hs s' labs p' E). cbn zeta in *.
  destruct Hs as ((K1 & K2 & K3 & K4) & K7). rewrite (rights_fold labs [LRef e]). change (rights [LRef e]) with (rights [LLive e; LRef e; LReg o]).
  rewrite <- rights_fold.
  destruct (hdr_rd (k_mem s) e) as [[[sig nref] pool]|]; [|discriminate]. cbn [bind] in E.
  destruct (nref =? 0).
  { injection E as <- <- <-. split; [split; [now apply KInv_rights|split; [now apply guar_same|exact K4]]|].
    exists tt. split; [exact I|constructor]. }
  destruct (rassert _ _ _); [|discriminate]. cbn [bind] in E.
  destruct (hdr_wr _ _ _ _ _); [|discriminate]. cbn [bind] in E. injection E as <- <- <-.
  split; [split; [now apply KInv_rights|split; [now apply guar_same|exact K4]]|].
  exists tt. split; [exact I|constructor].
Qed.

(** Activation, one at a time. *)
Lemma tsafe_activate own o qs n : (0 < n <= length qs)%nat ->
  tsafe own true (sma_activate c o qs n) [] (Jev [LAct o]).
Proof.
  intros Hn. pose proof (safe_activate c statics PB m0 RS prios nd Hmax Hasrt o qs n Hn) as HS.
  constructor; [apply stable_Jev; intros y [<-|[]]; reflexivity|]. intros s env lo Hlo HI Hb HJ.
  destruct (safe_atom_inv _ _ _ _ _ _ _ _ _ _ HS s env lo Hlo) as [Hf Hs].
  { apply KInv_rights. exact HI. } { apply bnd_rights. exact Hb. } { now apply Jev_evs. }
  split; [exact Hf|]. intros s' labs p' E. specialize (Hs s' labs p' E). cbn zeta in *.
  destruct Hs as ((K1 & K2 & _ & K4) & K5). rewrite (rights_fold labs []). change (rights []) with (rights [LAct o]).
  rewrite <- rights_fold. destruct (HJ (LAct o) (or_introl eq_refl)) as (a & Ho & Hlt & Hsl).
  destruct (rassert _ _ _); [|discriminate]. cbn [bind] in E.
  rewrite (proj2 (rd_ok _ _ _) Ho) in E. cbn [bind] in E.
  rewrite wr_lt in E by (eapply nth_some_lt; eauto). cbn [bind] in E. injection E as <- <- <-.
  split; [split; [|split; [|exact K4]]|].
  { apply KInv_rights. exact K1. }
  { split; [auto|]. split; [|discriminate]. cbn [k_ao k_sp set_ao]. intros o' a' Ho'.
    destruct (Nat.eq_dec o o') as [<-|Hne].
    - assert (a' = a) by congruence. subst a'. eexists.
      split; [apply nth_upd_eq; eapply nth_some_lt; eauto|]. split; [reflexivity|].
      split; [|discriminate]. intros _ Hr. unfold reg in Hr. congruence.
    - exists a'. rewrite nth_upd_ne by auto. split; [exact Ho'|]. split; [reflexivity|].
      split; [intros _ _; apply incl_refl|auto]. }
  exists (Jev [LActd o; LAct o]). split.
  { intros y [<-|[<-|[]]]; [apply (K2 (LActd o)); now left|apply (K2 (LAct o)); right; now left]. }
  clear - K5 OK Hmax Hasrt. cbn [fold_left led_step] in *. change (rights [LActd o; LAct o]) with (@nil litem).
  cbn [pseq sma_register] in *.
  constructor; [apply stable_Jev; intros y [<-|[<-|[]]]; reflexivity|]. intros s env lo Hlo HI Hb HJ.
  destruct (safe_atom_inv _ _ _ _ _ _ _ _ _ _ K5 s env lo Hlo) as [Hf Hs].
  { apply KInv_rights. exact HI. } { apply bnd_rights. exact Hb. } { now apply Jev_evs. }
  split; [exact Hf|]. intros s' labs p' E. specialize (Hs s' labs p' E). cbn zeta in *.
  destruct Hs as ((K1 & K2 & _ & K4) & K6). rewrite (rights_fold labs []). change (rights []) with (rights [LActd o; LAct o]).
  rewrite <- rights_fold. destruct (HJ (LAct o) (or_intror (or_introl eq_refl))) as (a & Ho & Hlt & Hsl).
  rewrite (proj2 (rd_ok _ _ _) Ho) in E. cbn [bind] in E.
  replace (ao_prio a <=? max_sma (q_rg (k_qc c)) - 1) with true in E by lia.
  rewrite (proj2 (rd_ok _ _ _) Hsl) in E. cbn [bind] in E. rewrite rassert_true in E. cbn [bind] in E.
  injection E as <- <- <-. cbn [fold_left] in *.
  split; [split; [now apply KInv_rights|split; [now apply guar_same|exact K4]]|].
  exists (fun s lo => Jev [LActd o; LAct o] s lo /\ exists a', nth_error (k_ao s) o = Some a' /\ ao_prio a' = ao_prio a).
  split; [split; [exact HJ|eauto]|].
  clear - K6 OK Hmax Hasrt. change (rights [LActd o; LAct o]) with (@nil litem). cbn [pseq] in *.
  constructor.
  { intros s s' lo HR [HJ (a' & Ho & Hp)]. split.
    - revert HJ. apply stable_Jev with (own := own) (act := true); [intros y [<-|[<-|[]]]; reflexivity|exact HR].
    - destruct HR as (_ & R2 & _). destruct (R2 o a' Ho) as (a2 & Ho2 & Hp2 & _). exists a2. split; [exact Ho2|congruence]. }
  intros s env lo Hlo HI Hb [HJ (a' & Ho & Hp)].
  destruct (safe_atom_inv _ _ _ _ _ _ _ _ _ _ K6 s env lo Hlo) as [Hf Hs].
  { apply KInv_rights. exact HI. } { apply bnd_rights. exact Hb. } { now apply Jev_evs. }
  split; [exact Hf|]. intros s' labs p' E. specialize (Hs s' labs p' E). cbn zeta in *.
  destruct Hs as ((K1 & K2 & _ & K4) & K7). rewrite (rights_fold labs []). change (rights []) with (rights [LActd o; LAct o]).
  rewrite <- rights_fold. destruct (HJ (LAct o) (or_intror (or_introl eq_refl))) as (a2 & Ho2 & Hlt & Hsl).
  assert (a2 = a') by congruence. subst a2. rewrite Hp in *.
  rewrite wr_lt in E by (eapply nth_some_lt; eauto). cbn [bind] in E. injection E as <- <- <-.
  split; [split; [now apply KInv_rights|split; [|exact K4]]|].
  - split; [|split; [|discriminate]].
    + cbn [k_sp set_sp]. intros p o' Hpo. destruct (Nat.eq_dec (N.to_nat (ao_prio a)) p) as [<-|Hne]; [congruence|].
      now rewrite nth_upd_ne by auto.
    + cbn [k_ao k_sp set_sp]. intros o' x Hx. exists x. split; [exact Hx|]. split; [reflexivity|].
      split; [intros _ _; apply incl_refl|discriminate].
  - exists tt. split; [exact I|]. cbn [pseq]. constructor; [apply quiet_ret|constructor].
Qed.

(** A turn of the thread of an active object. *)
Lemma tsafe_turn (own : nat -> Prop) o : own o -> tsafe own false (mt_turn c o) [] (Jev [LReg o]).
Proof.
  intros Hown. constructor; [apply stable_Jev; intros y [<-|[]]; exact I|]. intros s env lo Hlo HI Hb HJ.
  destruct (HJ (LReg o) (or_introl eq_refl)) as (a & Ho & Hreg). pose proof (ki_q _ _ _ _ _ _ _ _ _ HI) as HQ.
  rewrite (proj2 (rd_ok _ _ _) Ho). cbn [bind].
  destruct (Nat.eqb_spec (q_qty (ao_q a)) 0) as [Hz|Hz].
  { split; [discriminate|]. intros s1 l1 p1 E. injection E as <- <- <-. cbn zeta. cbn [fold_left].
    split; [|exists tt; split; [exact I|constructor]]. split; [exact HI|]. split; [now apply guar_same|].
    intros ?; reflexivity. }
  destruct (q_view (ao_q a)) as [|e l] eqn:Hv; [now apply q_view_nil in Hv|].
  cbn [sma_get]. rewrite (proj2 (rd_ok _ _ _) Ho). cbn [bind].
  destruct (KQ_get c prios nd Hmax Hasrt _ _ _ _ _ o a e l HQ Ho Hreg Hv) as (q' & g' & E & Hv' & _ & HQ').
  rewrite E. cbn [bind]. rewrite wr_lt by (eapply nth_some_lt; eauto). cbn [bind]. rewrite rassert_true. cbn [bind].
  split; [discriminate|]. intros s1 l1 p1 E3. injection E3 as <- <- <-. cbn zeta. cbn [fold_left led_step filter].
  change (rights [LRef e]) with [LRef e].
  split.
  { split; [|split].
    - constructor; try apply HI; [|exact HQ'].
      eapply (KM_take c statics PB m0 RS prios nd Hmax Hasrt _ _ _ _ e); [exact HI|reflexivity|reflexivity| |].
      + intros x. pose proof (refs_ao _ s o a q' x Ho eq_refl) as H1. rewrite Hv, Hv' in H1. cbn [count_occ] in H1.
        match goal with |- (refs ?s1 x + _ = _)%nat => change (refs s1 x) with
           (refs (set_ao s (upd (k_ao s) o (mkAo (ao_prio a) q'))) x) end.
        destruct (N.eq_dec e x); lia.
      + reflexivity.
    - split; [auto|]. split; [|auto]. cbn [k_ao k_sp set_rg set_ao]. intros o' a' Ho'.
      destruct (Nat.eq_dec o o') as [<-|Hne].
      + assert (a' = a) by congruence. subst a'. eexists.
        split; [apply nth_upd_eq; eapply nth_some_lt; eauto|]. split; [reflexivity|]. split; [contradiction|]. contradiction.
      + exists a'. rewrite nth_upd_ne by auto. split; [exact Ho'|]. split; [reflexivity|].
        split; [intros _ _; apply incl_refl|auto].
    - intros o'. cbn [map fold_left log_step user_of]. unfold ao_view. cbn [k_ao set_rg set_ao].
      destruct (Nat.eqb_spec o' o) as [->|Hn].
      + rewrite nth_upd_eq by (eapply nth_some_lt; eauto). rewrite Ho, Hv. cbn [ao_q].
        rewrite N.eqb_refl. now rewrite Hv'.
      + rewrite nth_upd_ne by auto. reflexivity. }
  exists tt. split; [exact I|]. constructor; [apply quiet_atom|]. apply lift_plain.
  - apply safe_gc; try assumption. right; right. now left.
  - apply plain_gc.
  - intros y [<-|[]]. reflexivity.
Qed.

(** *** Calls *)
Lemma ts_weak own act p led (J J' : assn) : (forall s lo, J' s lo -> J s lo) -> stable own act J' ->
  tsafe own act p led J -> tsafe own act p led J'.
Proof.
  intros HJ Hs H. inversion H; subst; [constructor|constructor; assumption|]. constructor; [exact Hs|].
  intros s env lo A1 A2 A3 A4. apply (H1 s env lo); auto.
Qed.
Lemma op_ok_firm s op led : op_ok c statics s false op = Some led -> forall y, In y led -> firm (activates op) y.
Proof.
  destruct op; cbn [op_ok activates]; intros E y Hy;
    repeat match type of E with (if ?b then _ else _) = _ => destruct b; [|discriminate] end;
    injection E as <-; try (destruct Hy as [<-|[]]; (exact I || reflexivity)); try destruct Hy.
  apply in_map_iff in Hy. destruct Hy as (pe & <- & _). exact I.
Qed.

Lemma call_spec s L l lower (own : nat -> Prop) op mine l' :
  KInv s L -> grab c statics s l lower false op = Some (mine, l') ->
  (forall o d, op = ORecall o d -> own o) -> (forall o, op <> OTerm o) ->
  forallb (fun y => match y with LLive e => has lower (LRef e) | _ => true end) mine = true ->
  tsafe own (activates op) (api c op) (rights mine) (Jev mine) /\
  (forall y, is_right y = true -> cnt (rights mine) y + cnt l' y = cnt l y)%nat /\
  Jev mine s (cnt lower).
Proof.
  intros HI Hg Hr1 Hnt Hr2. destruct (grab_spec c statics PB m0 RS prios nd OK Hmax Hasrt _ _ _ _ _ _ _ _ HI Hg) as (_ & G2 & G3).
  rewrite forallb_forall in Hr2.
  split; [|split].
  2:{ intros y Hy. rewrite cnt_rights by exact Hy. now apply G2. }
  2:{ intros y Hy. specialize (G3 y Hy). specialize (Hr2 y Hy). destruct y; try exact G3.
      cbn [tev]. apply cnt_in. now apply has_in. }
  clear G2 G3 Hr2. unfold grab in Hg. destruct (op_ok c statics s false op) as [ev0|] eqn:Eo; [|discriminate].
  pose proof (op_ok_firm s op ev0 Eo) as Hfirm0.
  assert (Hno : op_evt op = None -> mine = ev0).
  { intros E. rewrite E in Hg. now injection Hg as <- <-. }
  assert (Hyes : forall e, op_evt op = Some e -> exists m1, mine = m1 ++ ev0 /\
             grab_evt statics s l lower (is_gc op) e = Some (m1, l')).
  { intros e E. rewrite E in Hg. destruct (grab_evt statics s l lower (is_gc op) e) as [[m1 l0]|]; [|discriminate].
    injection Hg as <- <-. eauto. }
  clear Hg.
  assert (Hh : forall e, op_evt op = Some e -> holds statics mine e).
  { intros e E. destruct (Hyes e E) as (m1 & -> & Eg). apply (holds_app c statics Hmax). apply (grab_evt_holds c statics Hmax Hasrt) in Eg. apply Eg. }
  assert (Hfirm : forall y, In y mine -> firm (activates op) y).
  { destruct (op_evt op) as [e|] eqn:Ee; [|rewrite (Hno eq_refl); exact Hfirm0].
    destruct (Hyes e eq_refl) as (m1 & -> & Eg). intros y Hy. apply in_app_iff in Hy. destruct Hy as [Hy|Hy]; [|now apply Hfirm0].
    apply (grab_evt_holds c statics Hmax Hasrt) in Eg. destruct Eg as (_ & _ & _ & H4).
    destruct (H4 y Hy) as [Hr|(-> & _)]; [|exact I]. destruct y; try exact I; discriminate. }
  destruct op as [esize sig|e|e|lifo o e|ch e sender|ch o|ch o|o|d e|o d|o qs n|ps|o]; cbn [api op_evt activates] in *; [| | | | | | | | | | | |now elim (Hnt o)].
  - cbn [op_ok] in Eo. injection Eo as <-. rewrite (Hno eq_refl).
    apply ts_weak with (J := tt); [intros ? ? _; exact I|apply stable_Jev; intros y []|].
    apply lift_plain; [apply safe_ae; assumption|apply plain_ae|intros y []].
  - apply ts_weak with (J := tt); [intros ? ? _; exact I|apply stable_Jev; exact Hfirm|].
    apply lift_plain; [|apply plain_gc|intros y Hy; now apply in_rights in Hy].
    destruct (Hyes e eq_refl) as (m1 & -> & Eg). apply (grab_evt_holds c statics Hmax Hasrt) in Eg. destruct Eg as (_ & H2 & _).
    specialize (H2 eq_refl). apply safe_gc; try assumption. rewrite !in_rights, !in_app_iff. cbn [is_right]. tauto.
  - apply lift_ev; [|exact Hfirm|].
    + exact (safe_reserve c statics PB m0 RS prios nd OK Hmax Hasrt true e mine (Hh e eq_refl)).
    + intros s1 s' labs p' E. okinv E. injection E as <- <- <-. eauto.
  - cbn [op_ok] in Eo. destruct (registered s o); [|discriminate]. injection Eo as <-.
    apply lift_ev; [|exact Hfirm|apply ends_post].
    apply (safe_post c statics PB m0 RS prios nd OK Hmax Hasrt true lifo o e mine); auto.
    destruct (Hyes e eq_refl) as (m1 & -> & _). apply in_app_iff. right. now left.
  - cbn [op_ok] in Eo. destruct (ch_ok c ch) eqn:Ech; [|discriminate]. unfold ch_ok in Ech.
    apply andb_true_iff in Ech. destruct Ech as [H1 H2]. apply N.ltb_lt in H1, H2.
    apply tsafe_publish; auto.
  - cbn [op_ok] in Eo. destruct (ch_ok c ch && ao_in_range c s o) eqn:Ech; [|discriminate]. unfold ch_ok in Ech.
    rewrite !andb_true_iff in Ech. destruct Ech as [[H1 H2] H3]. apply N.ltb_lt in H1, H2.
    destruct (range_prio _ _ _ _ _ _ _ _ _ _ HI H3) as (p & Hp & Hlt).
    pose proof (safe_sub c statics PB m0 RS prios nd Hmax Hasrt true true ch o p mine H1 H2 Hp Hlt) as HS.
    destruct (ends_sub true ch o) as (f & Ef & He). cbv iota in HS, Ef. rewrite Ef in HS |- *. now apply lift_ev.
  - cbn [op_ok] in Eo. destruct (ch_ok c ch && ao_in_range c s o) eqn:Ech; [|discriminate]. unfold ch_ok in Ech.
    rewrite !andb_true_iff in Ech. destruct Ech as [[H1 H2] H3]. apply N.ltb_lt in H1, H2.
    destruct (range_prio _ _ _ _ _ _ _ _ _ _ HI H3) as (p & Hp & Hlt).
    pose proof (safe_sub c statics PB m0 RS prios nd Hmax Hasrt true false ch o p mine H1 H2 Hp Hlt) as HS.
    destruct (ends_sub false ch o) as (f & Ef & He). cbv iota in HS, Ef. rewrite Ef in HS |- *. now apply lift_ev.
  - cbn [op_ok] in Eo. destruct (ao_in_range c s o) eqn:H3; [|discriminate].
    destruct (range_prio _ _ _ _ _ _ _ _ _ _ HI H3) as (p & Hp & Hlt).
    apply lift_ev; [|exact Hfirm|].
    + exact (safe_unsubAll c statics PB m0 RS prios nd Hmax Hasrt true o p mine Hp Hlt).
    + intros s1 s' labs p' E. okinv E. injection E as <- <- <-. eauto.
  - cbn [op_ok] in Eo. destruct (Nat.ltb_spec d (length (k_dq s))) as [Hd|]; [|discriminate].
    rewrite (kq_nd _ _ _ _ _ _ _ _ (ki_q _ _ _ _ _ _ _ _ _ HI)) in Hd.
    apply lift_ev; [|exact Hfirm|].
    + exact (safe_defer c statics PB m0 RS prios nd OK Hmax Hasrt true d e mine (Hh e eq_refl) Hd).
    + intros s1 s' labs p' E. okinv E. injection E as <- <- <-. eauto.
  - cbn [op_ok] in Eo. destruct (negb false && registered s o && (d <? length (k_dq s))%nat) eqn:Er; [|discriminate].
    rewrite !andb_true_iff in Er. destruct Er as ((H1 & H2) & Hd). apply Nat.ltb_lt in Hd.
    rewrite (kq_nd _ _ _ _ _ _ _ _ (ki_q _ _ _ _ _ _ _ _ _ HI)) in Hd.
    injection Eo as <-. rewrite (Hno eq_refl).
    change (rights [LReg o]) with (@nil litem). apply tsafe_recall; eauto.
  - cbn [op_ok] in Eo.
    destruct (negb false && ao_in_range c s o && (0 <? n)%nat && (n <=? length qs)%nat && _) eqn:Er; [|discriminate].
    rewrite !andb_true_iff in Er. destruct Er as ((((H1 & _) & H2) & H3) & _). apply Nat.ltb_lt in H2. apply Nat.leb_le in H3.
    injection Eo as <-. rewrite (Hno eq_refl). change (rights [LAct o]) with (@nil litem). apply tsafe_activate. lia.
  - cbn [op_ok] in Eo. destruct (forallb _ ps) eqn:Ef; [|discriminate]. injection Eo as <-.
    rewrite (Hno eq_refl) in *. rewrite forallb_forall in Ef.
    apply lift_ev; [|exact Hfirm|].
    + apply (safe_tick c statics PB m0 RS prios nd OK Hmax Hasrt true ps). intros o e Hi. split.
      * apply in_map_iff. exists (o, e). auto.
      * specialize (Ef _ Hi). apply andb_true_iff in Ef. now apply is_static_stat.
    + intros s1 s' labs p' E. okinv E. injection E as <- <- <-. eauto.
Qed.
Lemma tgrab_spec s L l lower x own op mine l' :
  KInv s L -> grab c statics s l lower false op = Some (mine, l') -> thread_rules x own lower mine op = true ->
  tsafe (fun o => own = Some o) (activates op) (api c op) (rights mine) (Jev mine) /\
  (forall y, is_right y = true -> cnt (rights mine) y + cnt l' y = cnt l y)%nat /\
  Jev mine s (cnt lower) /\ (activates op = true -> activating x = false).
Proof.
  intros HI Hg Hrule. unfold thread_rules in Hrule. apply andb_true_iff in Hrule. destruct Hrule as [Hr1 Hr2].
  destruct (call_spec s L l lower (fun o => own = Some o) op mine l' HI Hg) as (A & B & D); auto.
  { intros o d ->. destruct own as [o'|]; [|discriminate]. apply Nat.eqb_eq in Hr1. congruence. }
  { intros o ->. discriminate. }
  split; [exact A|]. split; [exact B|]. split; [exact D|]. intros E. destruct op; try discriminate. now apply negb_true_iff.
Qed.
End T.
