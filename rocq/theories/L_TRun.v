(** Proofs: every execution by threads keeps the kernel invariant, and no
    wake-up is lost. *)
From Verif Require Import Base L_Base M_RdyGrp S_RdyGrp L_RdyGrp M_Queue S_Queue L_Queue
  M_MemPool S_MemPool L_MemPool M_Kernel S_Kernel L_KMem L_KQueue L_Kernel L_KRun M_Threads S_Threads L_Threads.
Local Open Scope N_scope.

Lemma upd_cases {A} (l : list A) i t t' j u : nth_error l i = Some t -> nth_error (upd l i t') j = Some u ->
  (j = i /\ u = t') \/ (j <> i /\ nth_error l j = Some u).
Proof.
  intros Ht H. destruct (Nat.eq_dec j i) as [->|Hne].
  - rewrite nth_upd_eq in H by (eapply nth_some_lt; eauto). left. split; congruence.
  - rewrite nth_upd_ne in H by auto. auto.
Qed.
Lemma app_cases {A} (l : list A) t j u : nth_error (l ++ [t]) j = Some u ->
  (j = length l /\ u = t) \/ nth_error l j = Some u.
Proof.
  intros H. destruct (Nat.lt_ge_cases j (length l)) as [Hlt|Hge].
  - rewrite nth_error_app1 in H by exact Hlt. auto.
  - rewrite nth_error_app2 in H by exact Hge. destruct (j - length l)%nat as [|n] eqn:E.
    + injection H as <-. left. split; [lia|reflexivity].
    + destruct n; discriminate.
Qed.
Lemma cnt_upd l i t t' y : nth_error l i = Some t ->
  (cnt (concat (map thr_led (upd l i t'))) y + cnt (thr_led t) y =
   cnt (concat (map thr_led l)) y + cnt (thr_led t') y)%nat.
Proof.
  revert i. induction l as [|u l IH]; intros [|i] H; try discriminate.
  - injection H as ->. cbn [upd map concat]. rewrite !cnt_app. lia.
  - specialize (IH i H). cbn [upd map concat]. rewrite !cnt_app. lia.
Qed.
Lemma cnt_in_thr l i t y : nth_error l i = Some t -> (cnt (thr_led t) y <= cnt (concat (map thr_led l)) y)%nat.
Proof.
  revert i. induction l as [|u l IH]; intros [|i] H; try discriminate; cbn [map concat]; rewrite cnt_app.
  - injection H as ->. lia.
  - specialize (IH i H). lia.
Qed.

Lemma cnt_top own w f below y :
  cnt (thr_led (mkTh own w (f :: below))) y = (cnt (tf_led f) y + cnt (stk_led below) y)%nat.
Proof. unfold thr_led, stk_led. cbn [th_stk map concat]. now rewrite cnt_app. Qed.

(** Programs that return 0: what the thread of an object does after it got an event. *)
Inductive rets0 : prog -> Prop :=
| r0_ret : rets0 (Ret 0)
| r0_user u k : rets0 k -> rets0 (User u k)
| r0_atom f : (forall s s' labs p', f s = Ok (s', labs, p') -> rets0 p') -> rets0 (Atom f).

Section TR.
Context (c : kcfg) (statics : list (N * N)) (PB : list (list N)) (m0 : @mem cell) (RS : list N) (prios : list N) (nd : nat).
Context (OK : pb_ok c statics PB).
Context (Hmax : 1 <= max_sma (q_rg (k_qc c)) <= 64) (Hasrt : q_asrt (k_qc c) = true).

Notation KInv := (KInv c statics PB m0 RS prios nd).
Notation bnd := (bnd statics).
Notation tsafe := (tsafe c statics PB m0 RS prios nd).
Notation Jev := (Jev c).

Lemma rets0_gc e : rets0 (fwk_gc c e).
Proof.
  constructor. intros s s' labs p' E. destruct (hdr_rd (k_mem s) e) as [[[sig nref] pool]|]; [|discriminate].
  cbn [bind] in E. injection E as <- <- <-. destruct (nref =? 0); [constructor|].
  constructor. clear. intros s s' labs p' E. destruct (hdr_rd (k_mem s) e) as [[[sig nref] pool]|]; [|discriminate].
  cbn [bind] in E. destruct (1 <? nref).
  - destruct (hdr_wr (k_mem s) e sig (nref - 1) pool); [|discriminate]. cbn [bind] in E. injection E as <- <- <-.
    constructor.
  - cbv zeta in E. destruct (rassert _ _ _); [|discriminate]. cbn [bind] in E.
    destruct (rd (k_mgr s) _) as [ep|]; [|discriminate]. cbn [bind] in E. injection E as <- <- <-.
    constructor. clear. intros s s' labs p' E.
    destruct (evtPool_put c s ep e); [|discriminate]. cbn [bind] in E. injection E as <- <- <-. constructor.
Qed.
(** A turn either finds nothing or goes on to return 0. *)
Lemma turn_next o s s' labs p' : (exists f, mt_turn c o = Atom f /\ f s = Ok (s', labs, p')) ->
  rets0 p' \/ (p' = Ret 1 /\ s' = s /\ labs = [] /\ ao_view s o = []).
Proof.
  intros (f & E & Ef). unfold mt_turn in E. injection E as <-.
  destruct (rd (k_ao s) o) as [a|] eqn:Ea; [|discriminate]. cbn [bind] in Ef. apply (proj1 (rd_ok _ _ _)) in Ea.
  destruct (Nat.eqb_spec (q_qty (ao_q a)) 0) as [Hz|Hz].
  { right. injection Ef as <- <- <-. split; [reflexivity|]. split; [reflexivity|]. split; [reflexivity|].
    unfold ao_view. rewrite Ea. now apply q_view_nil. }
  left. cbn [sma_get] in Ef.
  destruct (queue_get _ _ _) as [[[q g] e]|]; [|discriminate]. cbn [bind] in Ef.
  destruct (wr _ _ _); [|discriminate]. cbn [bind] in Ef. destruct (rassert _ _ _); [|discriminate]. cbn [bind] in Ef.
  injection Ef as <- <- <-. constructor. apply rets0_gc.
Qed.

(** *** The invariant *)
Definition regd (s : kst) (o : nat) : Prop := exists a, nth_error (k_ao s) o = Some a /\ reg (k_sp s) a o.
Definition thr_ok (s : kst) (t : thread) : Prop :=
  (forall o, th_own t = Some o -> regd s o) /\
  match th_stk t with
  | [] => True
  | f :: below =>
    (exists J, tsafe (fun o => th_own t = Some o) (tf_act f) (tf_p f) (tf_led f) J /\ J s (cnt (stk_led below))) /\
    (forall g, In g below -> exists u k, tf_p g = User u k /\ quiet k /\ tsafe (fun o => th_own t = Some o) false k (tf_led g) tt)
  end.
(** The thread of an object is in a turn, and if it sleeps or is going to, an
    event in the queue means that it has been signalled. *)
Definition bot_ok (s : kst) (sig : nat -> bool) (t : thread) (o : nat) : Prop :=
  exists up f, th_stk t = up ++ [f] /\
    (th_wait t = true -> up = [] /\ tf_p f = mt_turn c o /\ (ao_view s o <> [] -> sig o = true)) /\
    (tf_p f = mt_turn c o \/ rets0 (tf_p f) \/
     (tf_p f = Ret 1 /\ (ao_view s o <> [] -> sig o = true))).
Definition act_in (t : thread) : bool := existsb in_activation (th_stk t).

Record TInv (x : tconf) : Prop := {
  ti_k : KInv (t_s x) (cnt (tled_all x));
  ti_b : bnd (t_s x) (cnt (tled_all x));
  ti_thr : forall i t, nth_error (t_thr x) i = Some t -> thr_ok (t_s x) t;
  ti_wait : forall i t, nth_error (t_thr x) i = Some t -> th_wait t = true -> th_own t <> None;
  ti_bot : forall i t o, nth_error (t_thr x) i = Some t -> th_own t = Some o -> bot_ok (t_s x) (t_sig x) t o;
  ti_own : forall i j t u o, nth_error (t_thr x) i = Some t -> nth_error (t_thr x) j = Some u ->
             th_own t = Some o -> th_own u = Some o -> i = j;
  ti_act : forall i j t u, nth_error (t_thr x) i = Some t -> nth_error (t_thr x) j = Some u ->
             act_in t = true -> act_in u = true -> i = j;
  ti_log : forall o, log_queue o (t_log x) = Some (ao_view (t_s x) o) }.

Lemma tsafe_user_inv own act u k led J : tsafe own act (User u k) led J -> quiet k /\ tsafe own false k led tt.
Proof. intros H. inversion H; subst. auto. Qed.
Lemma tsafe_atom_inv own act f led J : tsafe own act (Atom f) led J ->
  stable own act J /\
  forall s env lo, (forall x, lo x <= env x)%nat -> KInv s (Lc led env) -> bnd s (Lc led env) -> J s lo ->
       (forall flt, f s = Fault flt -> resource_fault flt) /\
       forall s' labs p', f s = Ok (s', labs, p') ->
         let led' := rights (fold_left led_step labs led) in
         (KInv s' (Lc led' env) /\ guar own act s s' /\ eff s labs p' s') /\
         exists J', J' s' lo /\ tsafe own act p' led' J'.
Proof. intros H. inversion H; subst. auto. Qed.

Lemma regd_guar own act s s' o : guar own act s s' -> regd s o -> regd s' o.
Proof.
  intros (G1 & G2 & _) (a & Ho & Hr). destruct (G2 o a Ho) as (a' & Ho' & Hp & _). exists a'. split; [exact Ho'|].
  unfold reg in *. rewrite Hp. auto.
Qed.
(** Another thread does not notice. *)
Lemma thr_ok_other (own : nat -> Prop) act s s' t : guar own act s s' ->
  (forall o, th_own t = Some o -> own o -> False) -> (act = true -> act_in t = false) -> thr_ok s t -> thr_ok s' t.
Proof.
  intros HG Ho Ha [H1 H2]. split; [intros o E; eapply regd_guar; eauto|].
  unfold act_in in Ha. destruct (th_stk t) as [|f below]; [exact I|]. destruct H2 as [(J & H2 & H3) H4]. split; [|exact H4].
  destruct (tf_p f) as [v|g|u k] eqn:Ep.
  - exists tt. split; [constructor|exact I].
  - exists J. split; [exact H2|]. destruct (tsafe_atom_inv _ _ _ _ _ H2) as [Hst _]. eapply Hst; [|exact H3].
    eapply guar_rely; [exact HG|exact Ho|]. destruct act; [|auto]. right.
    specialize (Ha eq_refl). cbn [existsb] in Ha. apply orb_false_iff in Ha. destruct Ha as [Ha _].
    unfold in_activation in Ha. rewrite Ep in Ha. now rewrite andb_true_r in Ha.
  - exists tt. split; [|exact I]. apply tsafe_user_inv in H2. destruct H2. now constructor.
Qed.

(** Signals: an event that appears in a queue has been announced. *)
Lemma set_event_mono labs : forall sig o, sig o = true -> fold_left set_event labs sig o = true.
Proof.
  induction labs as [|x labs IH]; intros sig o H; cbn [fold_left]; [exact H|]. apply IH.
  destruct x; cbn [set_event]; try exact H. destruct (Nat.eqb o o0); [reflexivity|exact H].
Qed.
Lemma log_none o l : fold_left (log_step o) l None = None.
Proof. induction l; [reflexivity|assumption]. Qed.
Lemma put_signals labs : forall sig o l, fold_left (log_step o) (map EL labs) (Some []) = Some l -> l <> [] ->
  fold_left set_event labs sig o = true.
Proof.
  induction labs as [|x labs IH]; intros sig o l E Hl; cbn [fold_left map] in *.
  - injection E as <-. congruence.
  - destruct x as [| |lifo o' e| | | | | | | | | | |]; cbn [log_step set_event] in *; try (eapply IH; eassumption).
    destruct (Nat.eqb_spec o o') as [->|Hne]; [|eapply IH; eassumption].
    apply set_event_mono. now rewrite Nat.eqb_refl.
Qed.
Lemma user_empties o p l l' : fold_left (log_step o) (user_of p) (Some l) = Some l' -> l = [] -> l' = [].
Proof.
  intros E ->. destruct p as [| |u k]; cbn [user_of fold_left log_step] in E; try congruence.
  destruct u; try congruence. destruct (Nat.eqb o o0); congruence.
Qed.
Lemma eff_signals s labs p' s' sig o : eff s labs p' s' -> (ao_view s o <> [] -> sig o = true) ->
  ao_view s' o <> [] -> fold_left set_event labs sig o = true.
Proof.
  intros He Hs Hv. specialize (He o). destruct (list_eq_dec N.eq_dec (ao_view s o) []) as [E|E].
  2:{ apply set_event_mono. auto. }
  rewrite E in He. destruct (fold_left (log_step o) (map EL labs) (Some [])) as [l|] eqn:El.
  - eapply put_signals; [exact El|]. intros ->. apply Hv. eapply user_empties; [exact He|reflexivity].
  - rewrite log_none in He. discriminate.
Qed.
Lemma bot_ok_other s labs p' s' sig t o : eff s labs p' s' -> bot_ok s sig t o ->
  bot_ok s' (fold_left set_event labs sig) t o.
Proof.
  intros He (up & f & E & H1 & H2). exists up, f. split; [exact E|]. split.
  - intros Hw. destruct (H1 Hw) as (A & B & D). split; [exact A|]. split; [exact B|]. intros Hv. eapply eff_signals; eauto.
  - destruct H2 as [H2|[H2|[H2 H3]]]; auto. right. right. split; [exact H2|]. intros Hv. eapply eff_signals; eauto.
Qed.

(** *** Steps *)
Definition outcome (r : res tconf) : Prop :=
  (exists x', r = Ok x' /\ TInv x') \/ (exists f, r = Fault f /\ resource_fault f).
Lemma same x : TInv x -> outcome (Ok x).
Proof. intros H. left. eauto. Qed.

Lemma led_app x t : thr_led t = [] -> forall s sig l log y,
  cnt (tled_all (mkTC s sig l (t_thr x ++ [t]) log)) y = cnt (concat (map thr_led (t_thr x)) ++ l) y.
Proof.
  intros E s sig l log y. unfold tled_all. cbn [t_thr t_led]. rewrite map_app, concat_app. cbn [map concat]. rewrite E, !app_nil_r.
  reflexivity.
Qed.

(** A new thread. *)
Lemma new_inv x t : TInv x -> thr_led t = [] -> thr_ok (t_s x) t -> th_wait t = false -> act_in t = false ->
  (forall o, th_own t = Some o -> bot_ok (t_s x) (t_sig x) t o /\
     forall i u, nth_error (t_thr x) i = Some u -> th_own u <> Some o) ->
  TInv (mkTC (t_s x) (t_sig x) (t_led x) (t_thr x ++ [t]) (t_log x)).
Proof.
  intros HT Hl Hok Hw Ha Ho. destruct HT as [T1 T2 T3 T4 T5 T6 T7 T8].
  constructor; cbn [t_s t_sig t_led t_thr t_log].
  - eapply KInv_ext; [|exact T1]. intros y _. now rewrite (led_app x t Hl).
  - intros a H. unfold tot. rewrite (led_app x t Hl). now apply T2.
  - intros i u H. apply app_cases in H. destruct H as [[-> ->]|H]; eauto.
  - intros i u H Hw'. apply app_cases in H. destruct H as [[-> ->]|H]; [congruence|eauto].
  - intros i u o H E. apply app_cases in H. destruct H as [[-> ->]|H]; [now apply Ho|eauto].
  - intros i j u v o H1 H2 E1 E2. apply app_cases in H1, H2.
    destruct H1 as [[-> ->]|H1], H2 as [[-> ->]|H2]; [reflexivity| | |eauto].
    + destruct (Ho o E1) as [_ N]. exfalso. eapply N; eauto.
    + destruct (Ho o E2) as [_ N]. exfalso. eapply N; eauto.
  - intros i j u v H1 H2 E1 E2. apply app_cases in H1, H2.
    destruct H1 as [[-> ->]|H1], H2 as [[-> ->]|H2]; [reflexivity|congruence|congruence|eauto].
  - exact T8.
Qed.

(** A thread moves without touching the kernel. *)
Lemma move_inv x i t t' sig l log :
  TInv x -> nth_error (t_thr x) i = Some t ->
  (forall y, is_right y = true -> (forall e, y = LRef e -> ~ stat statics e) ->
     cnt (thr_led t') y + cnt l y = cnt (thr_led t) y + cnt (t_led x) y)%nat ->
  th_own t' = th_own t -> thr_ok (t_s x) t' -> (th_wait t' = true -> th_own t' <> None) ->
  (forall o, th_own t' = Some o -> bot_ok (t_s x) sig t' o) ->
  (forall o, th_own t <> Some o -> sig o = t_sig x o) ->
  (act_in t' = true -> act_in t = true \/ forall j u, nth_error (t_thr x) j = Some u -> act_in u = false) ->
  (forall o, log_queue o log = Some (ao_view (t_s x) o)) ->
  TInv (mkTC (t_s x) sig l (set_thr x i t') log).
Proof.
  intros HT Ht Hl Eo Hok Hw Hb Hs Ha Hlog. destruct HT as [T1 T2 T3 T4 T5 T6 T7 T8].
  assert (Hcnt : forall y, is_right y = true -> (forall e, y = LRef e -> ~ stat statics e) ->
    cnt (tled_all (mkTC (t_s x) sig l (set_thr x i t') log)) y = cnt (tled_all x) y).
  { intros y Hy Hn. unfold tled_all. cbn [t_thr t_led]. rewrite !cnt_app. specialize (Hl y Hy Hn).
    pose proof (cnt_upd _ _ _ t' y Ht). unfold set_thr. lia. }
  constructor; cbn [t_s t_sig t_led t_thr t_log].
  - eapply KInv_ext2; [exact OK|exact Hcnt|exact T1].
  - intros a H. unfold tot. rewrite Hcnt; [now apply T2|reflexivity|]. intros e E. injection E as <-. exact H.
  - intros j u H. eapply upd_cases in H; [|exact Ht]. destruct H as [[-> ->]|[_ H]]; eauto.
  - intros j u H Hw'. eapply upd_cases in H; [|exact Ht]. destruct H as [[-> ->]|[_ H]]; eauto.
  - intros j u o H E. eapply upd_cases in H; [|exact Ht]. destruct H as [[-> ->]|[Hne H]]; [now apply Hb|].
    specialize (T5 _ _ _ H E). destruct T5 as (up & f & E1 & E2 & E3).
    assert (Es : sig o = t_sig x o).
    { apply Hs. intros E'. apply Hne. eapply T6; eauto. }
    exists up, f. rewrite Es. auto.
  - intros j k u v o H1 H2 E1 E2. eapply upd_cases in H1; [|exact Ht]. eapply upd_cases in H2; [|exact Ht].
    destruct H1 as [[-> ->]|[_ H1]], H2 as [[-> ->]|[_ H2]]; rewrite ?Eo in *; eauto.
  - intros j k u v H1 H2 E1 E2. eapply upd_cases in H1; [|exact Ht]. eapply upd_cases in H2; [|exact Ht].
    destruct H1 as [[-> ->]|[_ H1]], H2 as [[-> ->]|[_ H2]]; [reflexivity| | |eauto].
    + destruct (Ha E1) as [E|E]; [eauto|]. rewrite (E _ _ H2) in E2. discriminate.
    + destruct (Ha E2) as [E|E]; [eauto|]. rewrite (E _ _ H1) in E1. discriminate.
  - exact Hlog.
Qed.

Lemma tstep_inv x ch : TInv x -> outcome (tstep c statics true x ch).
Proof.
  intros HT. destruct ch as [|o|i a]; cbn [tstep].
  - left. eexists. split; [reflexivity|]. apply new_inv; auto.
    + split; [discriminate|]. cbn [th_stk]. split; [|intros g []]. exists tt. split; [|exact I].
      constructor; [apply quiet_ret|constructor].
    + discriminate.
  - destruct (registered (t_s x) o && _) eqn:E; [|now apply same]. apply andb_true_iff in E. destruct E as [E1 E2].
    left. eexists. split; [reflexivity|]. rewrite forallb_forall in E2.
    assert (Hr : regd (t_s x) o).
    { now apply registered_reg in E1. }
    apply new_inv; auto.
    + split; [cbn [th_own]; intros o' Eo; injection Eo as <-; exact Hr|]. cbn [th_stk th_own tf_act tf_p tf_led].
      split; [|intros g []]. exists (Jev [LReg o]). split; [now apply tsafe_turn|]. intros y [<-|[]]. exact Hr.
    + cbn [th_own]. intros o' Eo. injection Eo as <-. split.
      * eexists [], _. split; [reflexivity|]. split; [discriminate|now left].
      * intros i u Hu Eu. specialize (E2 u ltac:(eapply nth_error_In; eauto)). rewrite Eu, Nat.eqb_refl in E2. discriminate.
  - destruct (nth_error (t_thr x) i) as [t|] eqn:Ht; [|now apply same].
    pose proof (ti_thr x HT i t Ht) as Hok. pose proof (fun o => ti_bot x HT i t o Ht) as Hbot.
    destruct t as [own w stk]. cbn [th_own th_wait th_stk] in *.
    destruct a as [|op|]; destruct w; try (now apply same).
    + (* go on *)
      destruct stk as [|top below]; [now apply same|]. destruct top as [act led p]. cbn [tf_p tf_led tf_act] in *.
      destruct Hok as [Hreg [(J & HS & HJ) Hbel]]. cbn [th_own th_stk tf_p tf_led tf_act] in *.
      destruct p as [v|f|u k].
      * (* return *)
        left. eexists. split; [reflexivity|].
        set (l1 := filter _ led ++ t_led x).
        set (t' := match below, own with [], None => _ | [], Some o => _ | _, _ => _ end).
        assert (Eled : thr_led t' = stk_led below) by (unfold t'; destruct below, own; reflexivity).
        assert (Eown : th_own t' = own) by (unfold t'; destruct below, own; reflexivity).
        apply move_inv with (t := mkTh own false (mkTF act led (Ret v) :: below)); auto.
        -- intros y Hy Hns. rewrite Eled. unfold thr_led, stk_led. cbn [th_stk map concat tf_led].
           unfold l1. rewrite !cnt_app, cnt_keep; [lia|].
           destruct y as [| |e| | | | | |]; try reflexivity. apply negb_true_iff.
           destruct (is_static statics e) eqn:E; [|reflexivity]. apply is_static_stat in E. exfalso. eapply Hns; eauto.
        -- split; [intros o E; rewrite Eown in E; auto|]. unfold t'. destruct below as [|g below].
           ++ destruct own as [o|]; cbn [th_stk]; [|exact I]. cbn [th_own tf_act tf_p tf_led].
              split; [|intros g []]. exists (Jev [LReg o]). split; [now apply tsafe_turn|].
              intros y [<-|[]]. now apply Hreg.
           ++ cbn [th_stk th_own]. destruct (Hbel g ltac:(now left)) as (u & k & Eg & Hq & Hk). split.
              ** exists tt. split; [|exact I]. rewrite Eg. now constructor.
              ** intros h Hh. apply Hbel. now right.
        -- rewrite Eown. unfold t'. destruct below, own; cbn [th_wait]; congruence.
        -- rewrite Eown. intros o ->. destruct (Hbot o eq_refl) as (up & f & E & Hw & H). cbn [th_stk] in E.
           unfold t'. destruct below as [|g below].
           ++ destruct up as [|? up]; [|destruct up; discriminate]. injection E as E. subst f. cbn [tf_p] in H.
              eexists [], _. split; [reflexivity|]. cbn [th_wait tf_p]. split; [|now left].
              intros Hv. split; [reflexivity|]. split; [reflexivity|].
              destruct H as [H|[H|[_ H]]]; [discriminate| |exact H].
              inversion H; subst. discriminate.
           ++ destruct up as [|h up]; [discriminate|]. injection E as Eh E. exists up, f. split; [exact E|].
              split; [discriminate|]. exact H.
        -- unfold t', act_in. intros E. left. cbn [th_stk existsb]. apply orb_true_iff. right.
           destruct below; [destruct own; discriminate|exact E].
        -- apply (ti_log x HT).
      * (* atom *)
        set (below_led := stk_led below).
        set (env := fun y => (cnt (tled_all x) y - cnt led y)%nat).
        assert (Hin : forall y, (cnt led y + cnt below_led y <= cnt (tled_all x) y)%nat).
        { intros y. unfold tled_all. rewrite cnt_app. pose proof (cnt_in_thr _ _ _ y Ht) as H.
          rewrite cnt_top in H. cbn [tf_led] in H. unfold below_led. lia. }
        assert (ELc : forall y, Lc led env y = cnt (tled_all x) y).
        { intros y. unfold Lc, env. specialize (Hin y). lia. }
        destruct (tsafe_atom_inv _ _ _ _ _ HS) as [_ HA].
        destruct (HA (t_s x) env (cnt below_led)) as [Hf Hs].
        { intros y. unfold env. specialize (Hin y). lia. }
        { eapply KInv_ext; [|apply (ti_k x HT)]. intros y _. now rewrite ELc. }
        { intros a Ha. unfold tot. rewrite ELc. now apply (ti_b x HT). }
        { exact HJ. }
        destruct (f (t_s x)) as [[[s' labs] p']|flt] eqn:Ef.
        2:{ right. exists flt. split; [reflexivity|]. now apply Hf. }
        specialize (Hs s' labs p' eq_refl). cbn zeta in Hs |- *. fold (rights (fold_left led_step labs led)).
        set (led' := rights (fold_left led_step labs led)) in *.
        destruct Hs as ((K1 & K2 & K3) & J' & K4 & K5).
        set (t' := mkTh own false (mkTF act led' p' :: below)).
        set (x' := mkTC s' _ _ _ _).
        destruct (over statics s' (tled_all x')) eqn:Eov; [now apply same|].
        left. eexists. split; [reflexivity|].
        assert (ELc' : forall y, cnt (tled_all x') y = Lc led' env y).
        { intros y. unfold Lc, env, x', tled_all. cbn [t_thr t_led]. rewrite !cnt_app.
          pose proof (cnt_upd _ _ _ t' y Ht) as H. pose proof (cnt_in_thr _ _ _ y Ht) as H'. unfold set_thr. fold t'.
          unfold t' in H at 2. rewrite !cnt_top in H. rewrite cnt_top in H'. cbn [tf_led] in H, H'. lia. }
        assert (Hother : forall j u, j <> i -> nth_error (t_thr x) j = Some u -> thr_ok s' u).
        { intros j u Hne Hu. eapply thr_ok_other; [exact K2| | |eapply (ti_thr x HT); exact Hu].
          - intros o Eo E. apply Hne. eapply (ti_own x HT); [exact Hu|exact Ht|exact Eo|exact E].
          - intros ->. destruct (act_in u) eqn:Ea; [|reflexivity]. exfalso. apply Hne.
            eapply (ti_act x HT); [exact Hu|exact Ht|exact Ea|]. reflexivity. }
        constructor; cbn [t_s t_sig t_led t_thr t_log x'].
        -- eapply KInv_ext; [|exact K1]. intros y _. apply ELc'.
        -- apply (over_bnd c statics Hmax Hasrt) in Eov. exact Eov.
        -- intros j u H. unfold set_thr in H. eapply upd_cases in H; [|exact Ht]. destruct H as [[-> ->]|[Hne H]]; [|eauto].
           split; [cbn [th_own]; intros o E; eapply regd_guar; eauto|]. cbn [th_stk th_own tf_act tf_p tf_led].
           split; [|exact Hbel]. exists J'. auto.
        -- intros j u H Hw. unfold set_thr in H. eapply upd_cases in H; [|exact Ht]. destruct H as [[-> ->]|[Hne H]]; [discriminate|].
           eapply (ti_wait x HT); eauto.
        -- intros j u o H E. unfold set_thr in H. eapply upd_cases in H; [|exact Ht]. destruct H as [[-> ->]|[Hne H]].
           2:{ eapply bot_ok_other; [exact K3|]. eapply (ti_bot x HT); eauto. }
           cbn [th_own t'] in E. destruct (Hbot o E) as (up & f0 & E0 & Hw & H). clear E. rename E0 into E. cbn [th_stk th_wait] in *.
           destruct up as [|h up].
           ++ injection E as E1 E2. subst f0 below. cbn [tf_p] in H. eexists [], _. split; [reflexivity|].
              split; [discriminate|]. cbn [tf_p].
              destruct H as [H|[H|[H _]]]; [| |discriminate].
              ** destruct (turn_next o (t_s x) s' labs p') as [Hr|(-> & -> & -> & Hv)]; [exists f; split; [now symmetry|exact Ef]|auto|].
                 right. right. split; [reflexivity|]. congruence.
              ** right. left. inversion H; subst. eauto.
           ++ injection E as E1 E2. eexists (_ :: up), f0. split; [cbn [app]; now rewrite <- E2|].
              split; [discriminate|]. destruct (Hbel f0) as (u & k & Eu & _).
              { rewrite E2. apply in_app_iff. right. now left. }
              destruct H as [H|[H|[H _]]]; [left; exact H|right; left; exact H|congruence].
        -- intros j k u v o H1 H2 E1 E2. unfold set_thr in *. eapply upd_cases in H1; [|exact Ht]. eapply upd_cases in H2; [|exact Ht].
           destruct H1 as [[-> ->]|[_ H1]], H2 as [[-> ->]|[_ H2]]; [reflexivity| | |]; eapply (ti_own x HT); eauto.
        -- intros j k u v H1 H2 E1 E2. unfold set_thr in *.
           assert (Hac : act_in t' = true -> act_in (mkTh own false (mkTF act led (Atom f) :: below)) = true).
           { unfold act_in, t'. cbn [th_stk existsb]. rewrite !orb_true_iff. intros [A|A]; [left|now right].
             unfold in_activation in *. cbn [tf_act tf_p] in *. apply andb_true_iff in A. destruct A as [-> _]. reflexivity. }
           eapply upd_cases in H1; [|exact Ht]. eapply upd_cases in H2; [|exact Ht].
           destruct H1 as [[-> ->]|[_ H1]], H2 as [[-> ->]|[_ H2]]; [reflexivity| | |]; eapply (ti_act x HT); eauto.
        -- intros o. pose proof (ti_log x HT o) as HL. unfold log_queue in *. rewrite !fold_left_app, HL. apply K3.
      * (* application code ends *)
        left. eexists. split; [reflexivity|]. apply tsafe_user_inv in HS. destruct HS as [Hq Hk].
        eapply move_inv; try exact Ht; auto.
        -- split; [exact Hreg|]. cbn [th_stk th_own tf_act tf_p tf_led]. split; [|exact Hbel]. exists tt. split; [exact Hk|exact I].
        -- discriminate.
        -- cbn [th_own]. intros o ->. destruct (Hbot o eq_refl) as (up & f0 & E & Hw & H). cbn [th_stk th_wait] in *.
           destruct up as [|h up].
           ++ injection E as E1 E2. subst f0 below. cbn [tf_p] in H. eexists [], _. split; [reflexivity|].
              split; [discriminate|]. cbn [tf_p]. destruct H as [H|[H|[H _]]]; [discriminate| |discriminate].
              right. left. inversion H; subst. assumption.
           ++ injection E as E1 E2. eexists (_ :: up), f0. split; [cbn [app]; now rewrite <- E2|].
              split; [discriminate|exact H].
        -- unfold act_in. cbn [th_stk existsb]. intros A. left. apply orb_true_iff in A. apply orb_true_iff. right.
           destruct A as [A|A]; [discriminate|exact A].
        -- intros o. apply log_user; [apply (ti_log x HT)|exact Hq].
    + (* call *)
      destruct stk as [|top below]; [now apply same|].
      destruct (tf_p top) as [v|f|u k] eqn:Ep; try (now apply same).
      set (t := mkTh own false (top :: below)) in *.
      destruct (grab c statics (t_s x) (t_led x) (thr_led t) false op) as [[mine l']|] eqn:Eg; [|now apply same].
      cbn [negb orb]. destruct (thread_rules x own (thr_led t) mine op) eqn:Er; [|now apply same].
      destruct (tgrab_spec c statics PB m0 RS prios nd OK Hmax Hasrt _ _ _ _ _ _ _ _ _ (ti_k x HT) Eg Er) as (G1 & G2 & G3 & G4).
      left. eexists. split; [reflexivity|]. destruct Hok as [Hreg [(J & HS & HJ) Hbel]].
      eapply move_inv; try exact Ht; auto.
      * intros y Hy _. unfold thr_led, stk_led. cbn [th_stk map concat tf_led t]. rewrite !cnt_app.
        specialize (G2 y Hy). unfold rights in G2. lia.
      * split; [exact Hreg|]. cbn [th_stk th_own tf_act tf_p tf_led]. split.
        -- exists (Jev mine). split; [exact G1|exact G3].
        -- intros g [<-|Hg]; [|now apply Hbel]. exists u, k. cbn [th_own t] in HS. rewrite Ep in HS.
           apply tsafe_user_inv in HS. destruct HS. auto.
      * discriminate.
      * cbn [th_own]. intros o E. destruct (Hbot o E) as (up & f0 & E0 & Hw & H). cbn [th_stk th_wait t] in *.
        eexists (_ :: up), f0. split; [cbn [app]; now rewrite <- E0|]. split; [discriminate|exact H].
      * unfold act_in. cbn [th_stk existsb t]. intros A. apply orb_true_iff in A. destruct A as [A|A]; [|now left].
        right. unfold in_activation in A. cbn [tf_act] in A. apply andb_true_iff in A. destruct A as [A _].
        specialize (G4 A). unfold activating in G4. intros j u0 Hu. destruct (existsb in_activation (th_stk u0)) eqn:Ea; [|reflexivity].
        rewrite <- G4. symmetry. apply existsb_exists. exists u0. split; [eapply nth_error_In; eauto|exact Ea].
      * apply (ti_log x HT).
    + (* woken *)
      destruct own as [o|]; [|now apply same]. unfold wait_event. destruct (t_sig x o) eqn:Es; [|now apply same].
      left. eexists. split; [reflexivity|]. eapply move_inv; try exact Ht; auto.
      * discriminate.
      * cbn [th_own]. intros o' E. injection E as <-. destruct (Hbot o eq_refl) as (up & f0 & E0 & Hw & H). cbn [th_stk th_wait] in *.
        destruct (Hw eq_refl) as (-> & Ef & _). exists [], f0. split; [exact E0|]. split; [discriminate|now left].
      * intros o' Ho. cbn [th_own] in Ho. destruct (Nat.eqb_spec o' o) as [->|]; [congruence|reflexivity].
      * apply (ti_log x HT).
Qed.

Lemma trun_inv chs : forall x, TInv x ->
  (exists x', trun c statics true x chs = Ok x' /\ TInv x') \/
  (exists f, trun c statics true x chs = Fault f /\ resource_fault f).
Proof.
  induction chs as [|ch t IH]; intros x HC; cbn [trun].
  - left. eauto.
  - destruct (tstep_inv x ch HC) as [(x' & E & HC')|(f & E & Hf)]; rewrite E; cbn [bind].
    + apply IH. exact HC'.
    + right. eauto.
Qed.

Lemma tconf0_inv s : KInv s (fun _ => 0%nat) -> (forall o, ao_view s o = []) -> (all_queued s = []) ->
  TInv (tconf0 s).
Proof.
  intros HI Hv Hq. constructor; unfold tconf0; cbn [t_s t_sig t_led t_thr t_log].
  - exact HI.
  - intros a _. rewrite tot_holders. unfold holders. rewrite Hq. cbn. lia.
  - intros [|i] t H; discriminate.
  - intros [|i] t H; discriminate.
  - intros [|i] t o H; discriminate.
  - intros [|i] j t u o H; discriminate.
  - intros [|i] j t u H; discriminate.
  - intros o. rewrite Hv. reflexivity.
Qed.
End TR.
