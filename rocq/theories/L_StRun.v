(** Proofs: every execution of a single-thread host port keeps the kernel
    invariant, and no wake-up is lost. *)
From Verif Require Import Base L_Base M_RdyGrp S_RdyGrp L_RdyGrp M_Queue S_Queue L_Queue
  M_MemPool S_MemPool L_MemPool M_Kernel S_Kernel L_KMem L_KQueue L_Kernel L_KRun M_Threads S_Threads L_Threads L_TRun
  M_St S_St.
Local Open Scope N_scope.

Lemma scnt_upd l i t t' y : nth_error l i = Some t ->
  (cnt (concat (map sh_led (upd l i t'))) y + cnt (sh_led t) y =
   cnt (concat (map sh_led l)) y + cnt (sh_led t') y)%nat.
Proof.
  revert i. induction l as [|u l IH]; intros [|i] H; try discriminate.
  - injection H as ->. cbn [upd map concat]. rewrite !cnt_app. lia.
  - specialize (IH i H). cbn [upd map concat]. rewrite !cnt_app. lia.
Qed.
Lemma scnt_in_thr l i t y : nth_error l i = Some t -> (cnt (sh_led t) y <= cnt (concat (map sh_led l)) y)%nat.
Proof.
  revert i. induction l as [|u l IH]; intros [|i] H; try discriminate; cbn [map concat]; rewrite cnt_app.
  - injection H as ->. lia.
  - specialize (IH i H). lia.
Qed.
Lemma scnt_top m w f below y :
  cnt (sh_led (mkSH m w (f :: below))) y = (cnt (tf_led f) y + cnt (stk_led below) y)%nat.
Proof. unfold sh_led, stk_led. cbn [sh_stk map concat]. now rewrite cnt_app. Qed.

Section SR.
Context (c : kcfg) (pt : stport) (statics : list (N * N)) (PB : list (list N)) (m0 : @mem cell) (RS : list N) (prios : list N) (nd : nat).
Context (OK : pb_ok c statics PB).
Context (Hmax : 1 <= max_sma (q_rg (k_qc c)) <= 64) (Hasrt : q_asrt (k_qc c) = true).
Context (Hpt : 1 <= st_vmax pt).

Notation KInv := (KInv c statics PB m0 RS prios nd).
Notation bnd := (bnd statics).
Notation tsafe := (tsafe c statics PB m0 RS prios nd).
Notation Jev := (Jev c).

(** *** A turn *)
Definition all : nat -> Prop := fun _ => True.
Lemma stsafe_turn (own : nat -> Prop) : (forall o, own o) -> tsafe own false (st_turn c) [] tt.
Proof.
  intros Hown. constructor; [apply stable_tt|]. intros s env lo Hlo HI Hb _. pose proof (ki_q _ _ _ _ _ _ _ _ _ HI) as HQ.
  destruct (rg_isReady (k_rg s)) eqn:Er.
  2:{ split; [discriminate|]. intros s1 l1 p1 E1. injection E1 as <- <- <-. cbn zeta. cbn [fold_left].
      split; [split; [exact HI|split; [now apply guar_same|intros ?; reflexivity]]|].
      exists tt. split; [exact I|]. constructor; [apply quiet_ret|constructor]. }
  destruct (KQ_highest c prios nd Hmax Hasrt _ _ _ _ _ HQ Er) as (p & o & a & E1 & E2 & Ho & Hp & Hreg & Hv & _).
  rewrite E1. cbn [bind]. rewrite E2. cbn [bind].
  split; [discriminate|]. intros s1 l1 p1 E3. injection E3 as <- <- <-. cbn zeta. cbn [fold_left led_step].
  change (rights [LSel o]) with (@nil litem).
  split; [split; [exact HI|split; [now apply guar_same|intros ?; reflexivity]]|].
  set (J := fun (s : kst) (lo : litem -> nat) => exists a, nth_error (k_ao s) o = Some a /\ reg (k_sp s) a o /\ q_view (ao_q a) <> []).
  exists J. split; [exists a; auto|].
  clear s env lo Hlo HI Hb HQ Er p a E1 E2 Ho Hp Hreg Hv.
  constructor.
  { intros s s' lo HR (a & Ho & Hr & Hi). pose proof HR as (_ & R2 & _). destruct (R2 o a Ho) as (a' & Ho' & Hp & Hinc & _).
    exists a'. split; [exact Ho'|]. split; [eapply rely_reg; eauto|]. specialize (Hinc (Hown o) Hr).
    destruct (q_view (ao_q a)) as [|e w]; [congruence|]. intros E. specialize (Hinc e (or_introl eq_refl)). rewrite E in Hinc. destruct Hinc. }
  intros s env lo Hlo HI Hb (a & Ho & Hreg & Hne). pose proof (ki_q _ _ _ _ _ _ _ _ _ HI) as HQ.
  destruct (q_view (ao_q a)) as [|e l] eqn:Hv; [congruence|].
  rewrite (proj2 (rd_ok _ _ _) Ho). cbn [bind].
  destruct (KQ_get c prios nd Hmax Hasrt _ _ _ _ _ o a e l HQ Ho Hreg Hv) as (q' & g' & E & Hv' & _ & HQ').
  rewrite E. cbn [bind]. rewrite wr_lt by (eapply nth_some_lt; eauto). cbn [bind]. rewrite rassert_true. cbn [bind].
  split; [discriminate|]. intros s1 l1 p1 E3. injection E3 as <- <- <-. cbn zeta. cbn [fold_left led_step filter].
  change (rights [LRef e]) with [LRef e].
  split.
  { split; [|split].
    - constructor; try apply HI; [|exact HQ'].
      eapply (KM_take c statics PB m0 RS prios nd Hmax Hasrt _ _ _ _ e); [exact HI|reflexivity|reflexivity| |].
      + intros x. pose proof (refs_ao _ s o a q' x Ho eq_refl) as H1. rewrite Hv, Hv' in H1. cbn [count_occ] in H1.
        match goal with |- (refs ?s1 x + _ = _)%nat => change (refs s1 x) with
           (refs (set_ao s (upd (k_ao s) o (mkAo (ao_prio a) q'))) x) end.
        destruct (N.eq_dec e x); lia.
      + reflexivity.
    - split; [auto|]. split; [|auto]. cbn [k_ao k_sp set_rg set_ao]. intros o' a' Ho'.
      destruct (Nat.eq_dec o o') as [<-|Hne'].
      + assert (a' = a) by congruence. subst a'. eexists.
        split; [apply nth_upd_eq; eapply nth_some_lt; eauto|]. split; [reflexivity|].
        split; [intros Hn; destruct (Hn (Hown o))|]. contradiction.
      + exists a'. rewrite nth_upd_ne by auto. split; [exact Ho'|]. split; [reflexivity|].
        split; [intros _ _; apply incl_refl|auto].
    - intros o'. cbn [map fold_left log_step user_of]. unfold ao_view. cbn [k_ao set_rg set_ao].
      destruct (Nat.eqb_spec o' o) as [->|Hn].
      + rewrite nth_upd_eq by (eapply nth_some_lt; eauto). rewrite Ho, Hv. cbn [ao_q].
        rewrite N.eqb_refl. now rewrite Hv'.
      + rewrite nth_upd_ne by auto. reflexivity. }
  exists tt. split; [exact I|]. constructor; [apply quiet_atom|]. apply lift_plain.
  - apply safe_gc; try assumption. right; right. now left.
  - apply plain_gc.
  - intros y [<-|[]]. reflexivity.
Qed.

Lemma rets0_get o : rets0 (sma_get c o (fun e => User (UDispatch o e) (fwk_gc c e))).
Proof.
  constructor. intros s s' labs p' E. destruct (rd (k_ao s) o) as [a|]; [|discriminate]. cbn [bind] in E.
  destruct (queue_get _ _ _) as [[[q g] e]|]; [|discriminate]. cbn [bind] in E.
  destruct (wr _ _ _); [|discriminate]. cbn [bind] in E. destruct (rassert _ _ _); [|discriminate]. cbn [bind] in E.
  injection E as <- <- <-. constructor. apply rets0_gc.
Qed.

(** *** The invariant *)
Definition sown (t : sthread) : nat -> Prop := fun _ => sh_main t = true.
Definition sthr_ok (s : kst) (t : sthread) : Prop :=
  match sh_stk t with
  | [] => True
  | f :: below =>
    (exists J, tsafe (sown t) (tf_act f) (tf_p f) (tf_led f) J /\ J s (cnt (stk_led below))) /\
    (forall g, In g below -> exists u k, tf_p g = User u k /\ quiet k /\ tsafe (sown t) false k (tf_led g) tt)
  end.
(** If there is an event in a queue, the semaphore is above zero. *)
Definition told (s : kst) (n : N) : Prop := forall o, ao_view s o <> [] -> 0 < n.
(** The thread of rkh_fwk_enter, in a turn or in the start hook; if it sleeps or is
    going to, it has been told. *)
Definition phase (s : kst) (n : N) (p : prog) : Prop :=
  p = st_turn c \/ p = st_start \/ p = Ret 2 \/ rets0 p \/ ((p = Ret 1 \/ p = User UIdle (Ret 1)) /\ told s n).
Definition sbot_ok (s : kst) (n : N) (t : sthread) : Prop :=
  sh_stk t = [] /\ sh_wait t = false \/
  exists up f, sh_stk t = up ++ [f] /\
    (sh_wait t = true -> up = [] /\ tf_p f = Ret 0 /\ told s n) /\ phase s n (tf_p f).
Definition sact_in (t : sthread) : bool := existsb in_activation (sh_stk t).

Record SInv (x : sconf) : Prop := {
  si_k : KInv (u_s x) (cnt (sled_all x));
  si_b : bnd (u_s x) (cnt (sled_all x));
  si_thr : forall i t, nth_error (u_thr x) i = Some t -> sthr_ok (u_s x) t;
  si_wait : forall i t, nth_error (u_thr x) i = Some t -> sh_wait t = true -> sh_main t = true;
  si_bot : forall i t, nth_error (u_thr x) i = Some t -> sh_main t = true -> sbot_ok (u_s x) (u_sem x) t;
  si_main : forall i j t u, nth_error (u_thr x) i = Some t -> nth_error (u_thr x) j = Some u ->
             sh_main t = true -> sh_main u = true -> i = j;
  si_act : forall i j t u, nth_error (u_thr x) i = Some t -> nth_error (u_thr x) j = Some u ->
             sact_in t = true -> sact_in u = true -> i = j;
  si_log : forall o, log_queue o (u_log x) = Some (ao_view (u_s x) o) }.

(** Another thread does not notice. *)
Lemma sthr_ok_other (own : nat -> Prop) act s s' t : guar own act s s' ->
  (forall o, sown t o -> own o -> False) -> (act = true -> sact_in t = false) -> sthr_ok s t -> sthr_ok s' t.
Proof.
  intros HG Ho Ha H2. unfold sthr_ok in *.
  unfold sact_in in Ha. destruct (sh_stk t) as [|f below]; [exact I|]. destruct H2 as [(J & H2 & H3) H4]. split; [|exact H4].
  destruct (tf_p f) as [v|g|u k] eqn:Ep.
  - exists tt. split; [constructor|exact I].
  - exists J. split; [exact H2|]. destruct (tsafe_atom_inv _ _ _ _ _ _ _ _ _ _ _ _ H2) as [Hst _]. eapply Hst; [|exact H3].
    eapply guar_rely; [exact HG|exact Ho|]. destruct act; [|auto]. right.
    specialize (Ha eq_refl). cbn [existsb] in Ha. apply orb_false_iff in Ha. destruct Ha as [Ha _].
    unfold in_activation in Ha. rewrite Ep in Ha. now rewrite andb_true_r in Ha.
  - exists tt. split; [|exact I]. apply tsafe_user_inv in H2. destruct H2. now constructor.
Qed.

(** An event that appears in a queue has been announced. *)
Lemma sem_mono labs : forall n, n <= fold_left (sem_up pt) labs n.
Proof.
  induction labs as [|x labs IH]; intros n; cbn [fold_left]; [lia|]. etransitivity; [|apply IH].
  destruct x; cbn [sem_up]; try lia. destruct (n <? st_vmax pt); lia.
Qed.
Lemma put_told labs : forall n o l, fold_left (log_step o) (map EL labs) (Some []) = Some l -> l <> [] ->
  0 < fold_left (sem_up pt) labs n.
Proof.
  induction labs as [|x labs IH]; intros n o l E Hl; cbn [fold_left map] in *.
  - injection E as <-. congruence.
  - destruct x as [| |lifo o' e| | | | | | | | | | |]; cbn [log_step] in *; try (eapply IH; eassumption).
    destruct (Nat.eqb_spec o o') as [->|Hne]; [|eapply IH; eassumption].
    pose proof (sem_mono labs (sem_up pt n (KPut lifo o' e))) as H. cbn [sem_up] in *.
    destruct (N.ltb_spec n (st_vmax pt)); lia.
Qed.
Lemma eff_told s labs p' s' n : eff s labs p' s' -> told s n -> told s' (fold_left (sem_up pt) labs n).
Proof.
  intros He Hs o Hv. specialize (He o). destruct (list_eq_dec N.eq_dec (ao_view s o) []) as [E|E].
  2:{ pose proof (sem_mono labs n). specialize (Hs o E). lia. }
  rewrite E in He. destruct (fold_left (log_step o) (map EL labs) (Some [])) as [l|] eqn:El.
  - eapply put_told; [exact El|]. intros ->. apply Hv. eapply user_empties; [exact He|reflexivity].
  - rewrite log_none in He. discriminate.
Qed.
Lemma phase_other s labs p' s' n p : eff s labs p' s' -> phase s n p -> phase s' (fold_left (sem_up pt) labs n) p.
Proof.
  intros He H. unfold phase in *. pose proof (eff_told _ _ _ _ n He). tauto.
Qed.
Lemma sbot_ok_other s labs p' s' n t : eff s labs p' s' -> sbot_ok s n t ->
  sbot_ok s' (fold_left (sem_up pt) labs n) t.
Proof.
  intros He [H|(up & f & E & H1 & H2)]; [now left|]. right. exists up, f. split; [exact E|]. split; [|eapply phase_other; eauto].
  intros Hw. destruct (H1 Hw) as (A & B & D). split; [exact A|]. split; [exact B|]. eapply eff_told; eauto.
Qed.
(** The next phase. *)
Lemma phase_atom s s' labs p' n f : f s = Ok (s', labs, p') -> phase s n (Atom f) ->
  (rg_isReady (k_rg s) = false -> told s n) ->
  phase s' (fold_left (sem_up pt) labs n) p'.
Proof.
  intros Ef H Ht. destruct H as [H|[H|[H|[H|[[H|H] _]]]]]; try discriminate.
  - unfold st_turn in H. injection H as ->. destruct (rg_isReady (k_rg s)) eqn:Er.
    + destruct (rg_findHighest (k_rg s)) as [p|]; [|discriminate]. cbn [bind] in Ef.
      destruct (rd (k_sp s) _) as [[o|]|]; [| |discriminate]; cbn [bind] in Ef.
      * assert (Ep : sma_get c o (fun e => User (UDispatch o e) (fwk_gc c e)) = p') by congruence. rewrite <- Ep.
        right. right. right. left. apply rets0_get.
      * assert (Ep : Atom (fun _ => Fault (FUB UB_null)) = p') by congruence. rewrite <- Ep.
        right. right. right. left. constructor. discriminate.
    + injection Ef as <- <- <-. cbn [fold_left]. right. right. right. right. split; [now right|auto].
  - right. right. right. left. inversion H; subst. eauto.
Qed.
Lemma phase_user s n u k : phase s n (User u k) -> phase s n k.
Proof.
  intros [H|[H|[H|[H|[[H|H] Ht]]]]]; try discriminate.
  - unfold st_start in H. injection H as _ ->. right. right. now left.
  - right. right. right. left. inversion H; subst. assumption.
  - injection H as _ ->. right. right. right. right. split; [now left|exact Ht].
Qed.
Lemma idle_told s l n : KInv s l -> rg_isReady (k_rg s) = false -> told s n.
Proof.
  intros HI Er o Hv. exfalso. apply Hv. unfold ao_view. destruct (nth_error (k_ao s) o) as [a|] eqn:Ea; [|reflexivity].
  pose proof (ki_q _ _ _ _ _ _ _ _ _ HI) as HQ. eapply KQ_idle; eauto.
Qed.

(** *** Steps *)
Definition soutcome (x : sconf) (r : res sconf) : Prop :=
  (exists x', r = Ok x' /\ SInv x') \/ (exists f, r = Fault f /\ resource_fault f) \/
  (r = Fault (FUB UB_dangling) /\ u_end x = true).
Lemma ssame x y : SInv x -> soutcome y (Ok x).
Proof. intros H. left. eauto. Qed.

Lemma sled_app x t : sh_led t = [] -> forall s n r e l log y,
  cnt (sled_all (mkSC s n r e l (u_thr x ++ [t]) log)) y = cnt (concat (map sh_led (u_thr x)) ++ l) y.
Proof.
  intros E s n r e l log y. unfold sled_all. cbn [u_thr u_led]. rewrite map_app, concat_app. cbn [map concat]. rewrite E, !app_nil_r.
  reflexivity.
Qed.

(** A new thread. *)
Lemma snew_inv x t run : SInv x -> sh_led t = [] -> sthr_ok (u_s x) t -> sh_wait t = false -> sact_in t = false ->
  (sh_main t = true -> sbot_ok (u_s x) (u_sem x) t /\ forall i u, nth_error (u_thr x) i = Some u -> sh_main u = false) ->
  SInv (mkSC (u_s x) (u_sem x) run (u_end x) (u_led x) (u_thr x ++ [t]) (u_log x)).
Proof.
  intros HT Hl Hok Hw Ha Ho. destruct HT as [T1 T2 T3 T4 T5 T6 T7 T8].
  constructor; cbn [u_s u_sem u_led u_thr u_log].
  - eapply KInv_ext; [|exact T1]. intros y _. now rewrite (sled_app x t Hl).
  - intros a H. unfold tot. rewrite (sled_app x t Hl). now apply T2.
  - intros i u H. apply app_cases in H. destruct H as [[-> ->]|H]; eauto.
  - intros i u H Hw'. apply app_cases in H. destruct H as [[-> ->]|H]; [congruence|eauto].
  - intros i u H E. apply app_cases in H. destruct H as [[-> ->]|H]; [now apply Ho|eauto].
  - intros i j u v H1 H2 E1 E2. apply app_cases in H1, H2.
    destruct H1 as [[-> ->]|H1], H2 as [[-> ->]|H2]; [reflexivity| | |eauto].
    + destruct (Ho E1) as [_ N]. rewrite (N _ _ H2) in E2. discriminate.
    + destruct (Ho E2) as [_ N]. rewrite (N _ _ H1) in E1. discriminate.
  - intros i j u v H1 H2 E1 E2. apply app_cases in H1, H2.
    destruct H1 as [[-> ->]|H1], H2 as [[-> ->]|H2]; [reflexivity|congruence|congruence|eauto].
  - exact T8.
Qed.

(** A thread moves without touching the kernel. *)
Lemma smove_inv x i t t' n run e l log :
  SInv x -> nth_error (u_thr x) i = Some t ->
  (forall y, is_right y = true -> (forall e, y = LRef e -> ~ stat statics e) ->
     cnt (sh_led t') y + cnt l y = cnt (sh_led t) y + cnt (u_led x) y)%nat ->
  sh_main t' = sh_main t -> sthr_ok (u_s x) t' -> (sh_wait t' = true -> sh_main t' = true) ->
  (sh_main t' = true -> sbot_ok (u_s x) n t') ->
  (sh_main t = false -> n = u_sem x) ->
  (sact_in t' = true -> sact_in t = true \/ forall j u, nth_error (u_thr x) j = Some u -> sact_in u = false) ->
  (forall o, log_queue o log = Some (ao_view (u_s x) o)) ->
  SInv (mkSC (u_s x) n run e l (put_thr x i t') log).
Proof.
  intros HT Ht Hl Eo Hok Hw Hb Hs Ha Hlog. destruct HT as [T1 T2 T3 T4 T5 T6 T7 T8].
  assert (Hcnt : forall y, is_right y = true -> (forall e, y = LRef e -> ~ stat statics e) ->
    cnt (sled_all (mkSC (u_s x) n run e l (put_thr x i t') log)) y = cnt (sled_all x) y).
  { intros y Hy Hn. unfold sled_all. cbn [u_thr u_led]. rewrite !cnt_app. specialize (Hl y Hy Hn).
    pose proof (scnt_upd _ _ _ t' y Ht). unfold put_thr. lia. }
  constructor; cbn [u_s u_sem u_led u_thr u_log].
  - eapply KInv_ext2; [exact OK|exact Hcnt|exact T1].
  - intros a H. unfold tot. rewrite Hcnt; [now apply T2|reflexivity|]. intros e' E. injection E as <-. exact H.
  - intros j u H. eapply upd_cases in H; [|exact Ht]. destruct H as [[-> ->]|[_ H]]; eauto.
  - intros j u H Hw'. eapply upd_cases in H; [|exact Ht]. destruct H as [[-> ->]|[_ H]]; eauto.
  - intros j u H E. eapply upd_cases in H; [|exact Ht]. destruct H as [[-> ->]|[Hne H]]; [now apply Hb|].
    rewrite Hs; [eauto|]. destruct (sh_main t) eqn:Em; [|reflexivity]. exfalso. apply Hne. eapply T6; eauto.
  - intros j k u v H1 H2 E1 E2. eapply upd_cases in H1; [|exact Ht]. eapply upd_cases in H2; [|exact Ht].
    destruct H1 as [[-> ->]|[_ H1]], H2 as [[-> ->]|[_ H2]]; rewrite ?Eo in *; eauto.
  - intros j k u v H1 H2 E1 E2. eapply upd_cases in H1; [|exact Ht]. eapply upd_cases in H2; [|exact Ht].
    destruct H1 as [[-> ->]|[_ H1]], H2 as [[-> ->]|[_ H2]]; [reflexivity| | |eauto].
    + destruct (Ha E1) as [E|E]; [eauto|]. rewrite (E _ _ H2) in E2. discriminate.
    + destruct (Ha E2) as [E|E]; [eauto|]. rewrite (E _ _ H1) in E1. discriminate.
  - exact Hlog.
Qed.

Lemma sgrab_spec x L l lower main op mine l' : KInv (u_s x) L ->
  grab c statics (u_s x) l lower false op = Some (mine, l') -> st_rules x main lower mine op = true ->
  tsafe (fun _ => main = true) (activates op) (api c op) (rights mine) (Jev mine) /\
  (forall y, is_right y = true -> cnt (rights mine) y + cnt l' y = cnt l y)%nat /\
  Jev mine (u_s x) (cnt lower) /\ (activates op = true -> s_activating x = false).
Proof.
  intros HI Eg Er. unfold st_rules in Er. apply andb_true_iff in Er. destruct Er as [R1 R2].
  destruct (call_spec c statics PB m0 RS prios nd OK Hmax Hasrt _ _ _ _ (fun _ => main = true) _ _ _ HI Eg) as (G1 & G2 & G3).
  { intros o d ->. exact R1. }
  { intros o ->. discriminate. }
  { exact R2. }
  split; [exact G1|]. split; [exact G2|]. split; [exact G3|].
  destruct op; cbn [activates]; try discriminate. intros _. now apply negb_true_iff in R1.
Qed.

Lemma sstep_inv x ch : SInv x -> soutcome x (sstep c pt statics true x ch).
Proof.
  intros HT. destruct ch as [| | |i a]; cbn [sstep].
  - left. eexists. split; [reflexivity|]. apply snew_inv; auto.
    + unfold sthr_ok. cbn [sh_stk]. split; [|intros g []]. exists tt. split; [|exact I].
      constructor; [apply quiet_ret|constructor].
    + discriminate.
  - destruct (existsb sh_main (u_thr x)) eqn:E; [now apply ssame|].
    left. eexists. split; [reflexivity|].
    apply snew_inv; auto.
    + unfold sthr_ok. cbn [sh_stk tf_act tf_p tf_led].
      split; [|intros g []]. exists tt. split; [|exact I]. constructor; [apply quiet_ret|constructor].
    + intros _. split.
      * right. eexists [], _. split; [reflexivity|]. split; [discriminate|]. right. now left.
      * intros i u Hu. destruct (sh_main u) eqn:Eu; [|reflexivity]. rewrite <- E. symmetry. apply existsb_exists.
        exists u. split; [eapply nth_error_In; eauto|exact Eu].
  - left. eexists. split; [reflexivity|]. destruct HT. constructor; assumption.
  - destruct (nth_error (u_thr x) i) as [t|] eqn:Ht; [|now apply ssame].
    pose proof (si_thr x HT i t Ht) as Hok. pose proof (si_bot x HT i t Ht) as Hbot.
    destruct t as [main w stk]. cbn [sh_main sh_wait sh_stk] in *.
    destruct a as [|op| |]; destruct w; try (now apply ssame).
    + (* go on *)
      destruct stk as [|top below]; [now apply ssame|]. destruct top as [act led p]. cbn [tf_p tf_led tf_act] in *.
      unfold sthr_ok in Hok. cbn [sh_stk] in Hok.
      destruct Hok as [(J & HS & HJ) Hbel]. unfold sown in HS, Hbel. cbn [sh_main sh_stk tf_p tf_led tf_act] in *.
      destruct p as [v|f|u k].
      * (* return *)
        left. set (l1 := filter _ led ++ u_led x).
        assert (Hcnt : forall t', sh_led t' = stk_led below -> forall y, is_right y = true -> (forall e, y = LRef e -> ~ stat statics e) ->
           (cnt (sh_led t') y + cnt l1 y = cnt (sh_led (mkSH main false (mkTF act led (Ret v) :: below))) y + cnt (u_led x) y)%nat).
        { intros t' Eled y Hy Hns. rewrite Eled. unfold sh_led, stk_led. cbn [sh_stk map concat tf_led].
          unfold l1. rewrite !cnt_app, cnt_keep; [lia|].
          destruct y as [| |e| | | | | |]; try reflexivity. apply negb_true_iff.
          destruct (is_static statics e) eqn:E; [|reflexivity]. apply is_static_stat in E. exfalso. eapply Hns; eauto. }
        destruct below as [|g below].
        -- destruct main.
           ++ destruct (Hbot eq_refl) as [[E _]|(up & f & E & Hw & H)]; [discriminate|].
              destruct up as [|? up]; [|destruct up; discriminate]. injection E as E. subst f. cbn [tf_p] in H.
              destruct (N.eqb_spec v 1) as [->|Hv1].
              ** eexists. split; [reflexivity|]. eapply smove_inv; try exact Ht; auto.
                 --- unfold sthr_ok. cbn [sh_stk]. split; [|intros g []]. exists tt. split; [constructor|exact I].
                 --- intros _. right. eexists [], _. split; [reflexivity|]. cbn [sh_wait tf_p]. split.
                     +++ intros _. split; [reflexivity|]. split; [reflexivity|].
                         destruct H as [H|[H|[H|[H|[_ H]]]]]; try discriminate; [|exact H]. inversion H.
                     +++ right. right. right. left. constructor.
                 --- discriminate.
                 --- apply (si_log x HT).
              ** cbv zeta. set (run := if v =? 2 then _ else _).
                 eexists. split; [reflexivity|]. eapply smove_inv; try exact Ht; auto.
                 --- apply Hcnt. destruct run; reflexivity.
                 --- destruct run; [|exact I]. unfold sthr_ok. cbn [sh_stk tf_act tf_p tf_led]. split; [|intros g []].
                     exists tt. split; [|exact I]. apply stsafe_turn. reflexivity.
                 --- intros _. destruct run; [right|left; split; reflexivity].
                     eexists [], _. split; [reflexivity|]. split; [discriminate|now left].
                 --- destruct run; discriminate.
                 --- apply (si_log x HT).
           ++ eexists. split; [reflexivity|]. eapply smove_inv; try exact Ht; auto.
              all: try discriminate; try exact I. apply (si_log x HT).
        -- replace (match main with true => _ | false => _ end) with
             (Ok (mkSC (u_s x) (u_sem x) (u_run x) (u_end x) l1 (put_thr x i (mkSH main false (g :: below))) (u_log x)))
             by (destruct main; reflexivity).
           eexists. split; [reflexivity|]. eapply smove_inv; try exact Ht; auto.
           ++ unfold sthr_ok, sown. cbn [sh_stk sh_main]. destruct (Hbel g ltac:(now left)) as (u & k & Eg & Hq & Hk). split.
              ** exists tt. split; [|exact I]. rewrite Eg. now constructor.
              ** intros h Hh. apply Hbel. now right.
           ++ discriminate.
           ++ cbn [sh_main]. intros Em. destruct (Hbot Em) as [[E _]|(up & f & E & Hw & H)]; [discriminate|].
              destruct up as [|h up]; [discriminate|]. injection E as Eh E. right. exists up, f. split; [exact E|].
              split; [discriminate|exact H].
           ++ unfold sact_in. intros E. left. cbn [sh_stk existsb] in *. apply orb_true_iff. now right.
           ++ apply (si_log x HT).
      * (* atom *)
        destruct (u_end x) eqn:Eend; [right; right; auto|].
        set (below_led := stk_led below).
        set (env := fun y => (cnt (sled_all x) y - cnt led y)%nat).
        assert (Hin : forall y, (cnt led y + cnt below_led y <= cnt (sled_all x) y)%nat).
        { intros y. unfold sled_all. rewrite cnt_app. pose proof (scnt_in_thr _ _ _ y Ht) as H.
          rewrite scnt_top in H. cbn [tf_led] in H. unfold below_led. lia. }
        assert (ELc : forall y, Lc led env y = cnt (sled_all x) y).
        { intros y. unfold Lc, env. specialize (Hin y). lia. }
        destruct (tsafe_atom_inv _ _ _ _ _ _ _ _ _ _ _ _ HS) as [_ HA].
        destruct (HA (u_s x) env (cnt below_led)) as [Hf Hs].
        { intros y. unfold env. specialize (Hin y). lia. }
        { eapply KInv_ext; [|apply (si_k x HT)]. intros y _. now rewrite ELc. }
        { intros a Ha. unfold tot. rewrite ELc. now apply (si_b x HT). }
        { exact HJ. }
        destruct (f (u_s x)) as [[[s' labs] p']|flt] eqn:Ef.
        2:{ right. left. exists flt. split; [reflexivity|]. now apply Hf. }
        specialize (Hs s' labs p' eq_refl). cbn zeta in Hs |- *. fold (rights (fold_left led_step labs led)).
        set (led' := rights (fold_left led_step labs led)) in *.
        destruct Hs as ((K1 & K2 & K3) & J' & K4 & K5).
        set (t' := mkSH main false (mkTF act led' p' :: below)).
        set (x' := mkSC s' _ _ _ _ _ _).
        destruct (over statics s' (sled_all x')) eqn:Eov; [now apply ssame|].
        left. eexists. split; [reflexivity|].
        assert (ELc' : forall y, cnt (sled_all x') y = Lc led' env y).
        { intros y. unfold Lc, env, x', sled_all. cbn [u_thr u_led]. rewrite !cnt_app.
          pose proof (scnt_upd _ _ _ t' y Ht) as H. pose proof (scnt_in_thr _ _ _ y Ht) as H'. unfold put_thr. fold t'.
          unfold t' in H at 2. rewrite !scnt_top in H. rewrite scnt_top in H'. cbn [tf_led] in H, H'. lia. }
        assert (Hother : forall j u, j <> i -> nth_error (u_thr x) j = Some u -> sthr_ok s' u).
        { intros j u Hne Hu. eapply sthr_ok_other; [exact K2| | |eapply (si_thr x HT); exact Hu].
          - unfold sown. intros o Eo E. apply Hne. eapply (si_main x HT); [exact Hu|exact Ht|exact Eo|exact E].
          - intros ->. destruct (sact_in u) eqn:Ea; [|reflexivity]. exfalso. apply Hne.
            eapply (si_act x HT); [exact Hu|exact Ht|exact Ea|]. reflexivity. }
        constructor; cbn [u_s u_sem u_led u_thr u_log x'].
        -- eapply KInv_ext; [|exact K1]. intros y _. apply ELc'.
        -- apply (over_bnd c statics Hmax Hasrt) in Eov. exact Eov.
        -- intros j u H. unfold put_thr in H. eapply upd_cases in H; [|exact Ht]. destruct H as [[-> ->]|[Hne H]]; [|eauto].
           unfold sthr_ok, sown. cbn [sh_stk sh_main tf_act tf_p tf_led t'].
           split; [|exact Hbel]. exists J'. auto.
        -- intros j u H Hw. unfold put_thr in H. eapply upd_cases in H; [|exact Ht]. destruct H as [[-> ->]|[Hne H]]; [discriminate|].
           eapply (si_wait x HT); eauto.
        -- intros j u H E. unfold put_thr in H. eapply upd_cases in H; [|exact Ht]. destruct H as [[-> ->]|[Hne H]].
           2:{ eapply sbot_ok_other; [exact K3|]. eapply (si_bot x HT); eauto. }
           cbn [sh_main t'] in E. destruct (Hbot E) as [[E0 _]|(up & f0 & E0 & Hw & H)]; [discriminate|]. clear E. rename E0 into E. cbn [sh_stk sh_wait] in *.
           right. destruct up as [|h up].
           ++ injection E as E1 E2. subst f0 below. cbn [tf_p] in H. eexists [], _. split; [reflexivity|].
              split; [discriminate|]. cbn [tf_p]. eapply phase_atom; [exact Ef|exact H|].
              eapply idle_told. apply (si_k x HT).
           ++ injection E as E1 E2. eexists (_ :: up), f0. split; [cbn [app]; now rewrite <- E2|].
              split; [discriminate|]. eapply phase_other; eauto.
        -- intros j k u v H1 H2 E1 E2. unfold put_thr in *. eapply upd_cases in H1; [|exact Ht]. eapply upd_cases in H2; [|exact Ht].
           destruct H1 as [[-> ->]|[_ H1]], H2 as [[-> ->]|[_ H2]]; [reflexivity| | |]; eapply (si_main x HT); eauto.
        -- intros j k u v H1 H2 E1 E2. unfold put_thr in *.
           assert (Hac : sact_in t' = true -> sact_in (mkSH main false (mkTF act led (Atom f) :: below)) = true).
           { unfold sact_in, t'. cbn [sh_stk existsb]. rewrite !orb_true_iff. intros [A|A]; [left|now right].
             unfold in_activation in *. cbn [tf_act tf_p] in *. apply andb_true_iff in A. destruct A as [-> _]. reflexivity. }
           eapply upd_cases in H1; [|exact Ht]. eapply upd_cases in H2; [|exact Ht].
           destruct H1 as [[-> ->]|[_ H1]], H2 as [[-> ->]|[_ H2]]; [reflexivity| | |]; eapply (si_act x HT); eauto.
        -- intros o. pose proof (si_log x HT o) as HL. unfold log_queue in *. rewrite !fold_left_app, HL. apply K3.
      * (* application code ends *)
        left. eexists. split; [reflexivity|]. apply tsafe_user_inv in HS. destruct HS as [Hq Hk].
        eapply smove_inv; try exact Ht; auto.
        -- unfold sthr_ok, sown. cbn [sh_stk sh_main tf_act tf_p tf_led]. split; [|exact Hbel]. exists tt. split; [exact Hk|exact I].
        -- discriminate.
        -- cbn [sh_main]. intros ->. destruct (Hbot eq_refl) as [[E _]|(up & f0 & E & Hw & H)]; [discriminate|]. cbn [sh_stk sh_wait] in *.
           right. destruct up as [|h up].
           ++ injection E as E1 E2. subst f0 below. cbn [tf_p] in H. eexists [], _. split; [reflexivity|].
              split; [discriminate|]. cbn [tf_p]. eapply phase_user. exact H.
           ++ injection E as E1 E2. eexists (_ :: up), f0. split; [cbn [app]; now rewrite <- E2|].
              split; [discriminate|exact H].
        -- unfold sact_in. cbn [sh_stk existsb]. intros A. left. apply orb_true_iff in A. apply orb_true_iff. right.
           destruct A as [A|A]; [discriminate|exact A].
        -- intros o. apply log_user; [apply (si_log x HT)|exact Hq].
    + (* call *)
      destruct stk as [|top below]; [now apply ssame|].
      destruct (tf_p top) as [v|f|u k] eqn:Ep; try (now apply ssame).
      set (t := mkSH main false (top :: below)) in *.
      destruct (grab c statics (u_s x) (u_led x) (sh_led t) false op) as [[mine l']|] eqn:Eg; [|now apply ssame].
      cbn [negb orb]. destruct (st_rules x main (sh_led t) mine op) eqn:Er; [|now apply ssame].
      destruct (sgrab_spec _ _ _ _ _ _ _ _ (si_k x HT) Eg Er) as (G1 & G2 & G3 & G4).
      left. eexists. split; [reflexivity|]. unfold sthr_ok, sown in Hok. cbn [sh_stk sh_main t] in Hok. destruct Hok as [(J & HS & HJ) Hbel].
      eapply smove_inv; try exact Ht; auto.
      * intros y Hy _. unfold sh_led, stk_led. cbn [sh_stk map concat tf_led t]. rewrite !cnt_app.
        specialize (G2 y Hy). unfold rights in G2. lia.
      * unfold sthr_ok, sown. cbn [sh_stk sh_main tf_act tf_p tf_led]. split.
        -- exists (Jev mine). split; [exact G1|exact G3].
        -- intros g [<-|Hg]; [|now apply Hbel]. exists u, k. rewrite Ep in HS.
           apply tsafe_user_inv in HS. destruct HS. auto.
      * discriminate.
      * cbn [sh_main]. intros E. destruct (Hbot E) as [[E0 _]|(up & f0 & E0 & Hw & H)]; [discriminate|]. cbn [sh_stk sh_wait t] in *.
        right. eexists (_ :: up), f0. split; [cbn [app]; now rewrite <- E0|]. split; [discriminate|exact H].
      * unfold sact_in. cbn [sh_stk existsb t]. intros A. apply orb_true_iff in A. destruct A as [A|A]; [|now left].
        right. unfold in_activation in A. cbn [tf_act] in A. apply andb_true_iff in A. destruct A as [A _].
        specialize (G4 A). unfold s_activating in G4. intros j u0 Hu. destruct (existsb in_activation (sh_stk u0)) eqn:Ea; [|reflexivity].
        rewrite <- G4. symmetry. apply existsb_exists. exists u0. split; [eapply nth_error_In; eauto|exact Ea].
      * apply (si_log x HT).
    + (* woken *)
      pose proof (si_wait x HT i _ Ht eq_refl) as Em. cbn [sh_main] in Em. subst main.
      unfold sem_down. destruct (u_sem x =? 0); [now apply ssame|].
      left. eexists. split; [reflexivity|]. eapply smove_inv; try exact Ht; auto.
      * intros _. destruct (Hbot eq_refl) as [[_ E0]|(up & f0 & E0 & Hw & H)]; [discriminate|]. cbn [sh_stk sh_wait] in *.
        destruct (Hw eq_refl) as (-> & Ef & _). right. exists [], f0. split; [exact E0|]. split; [discriminate|].
        rewrite Ef. right. right. right. left. constructor.
      * discriminate.
      * apply (si_log x HT).
    + (* interrupted *)
      pose proof (si_wait x HT i _ Ht eq_refl) as Em. cbn [sh_main] in Em. subst main.
      left. eexists. split; [reflexivity|]. eapply smove_inv; try exact Ht; auto.
      * intros _. destruct (Hbot eq_refl) as [[_ E0]|(up & f0 & E0 & Hw & H)]; [discriminate|]. cbn [sh_stk sh_wait] in *.
        destruct (Hw eq_refl) as (-> & Ef & _). right. exists [], f0. split; [exact E0|]. split; [discriminate|].
        rewrite Ef. right. right. right. left. constructor.
      * apply (si_log x HT).
Qed.

Lemma srun_inv chs : forall x, SInv x ->
  (exists x', srun c pt statics true x chs = Ok x' /\ SInv x') \/
  (exists f, srun c pt statics true x chs = Fault f /\ resource_fault f) \/
  (exists chs1 y ch, (exists chs2, chs = chs1 ++ ch :: chs2) /\ srun c pt statics true x chs1 = Ok y /\ u_end y = true /\
     sstep c pt statics true y ch = Fault (FUB UB_dangling) /\ srun c pt statics true x chs = Fault (FUB UB_dangling)).
Proof.
  induction chs as [|ch t IH]; intros x HC; cbn [srun].
  - left. eauto.
  - destruct (sstep_inv x ch HC) as [(x' & E & HC')|[(f & E & Hf)|[E He]]]; rewrite E; cbn [bind].
    + destruct (IH x' HC') as [H|[H|(chs1 & y & ch' & (chs2 & ->) & E1 & E2 & E3 & E4)]]; [auto|auto|].
      right. right. exists (ch :: chs1), y, ch'. split; [exists chs2; reflexivity|]. cbn [srun]. rewrite E. cbn [bind]. auto.
    + right. left. eauto.
    + right. right. exists [], x, ch. split; [exists t; reflexivity|]. cbn [srun]. auto.
Qed.

Lemma sconf0_inv s : KInv s (fun _ => 0%nat) -> (forall o, ao_view s o = []) -> (all_queued s = []) ->
  SInv (sconf0 s).
Proof.
  intros HI Hv Hq. constructor; unfold sconf0; cbn [u_s u_sem u_led u_thr u_log].
  - exact HI.
  - intros a _. rewrite tot_holders. unfold holders. rewrite Hq. cbn. lia.
  - intros [|i] t H; discriminate.
  - intros [|i] t H; discriminate.
  - intros [|i] t H; discriminate.
  - intros [|i] j t u H; discriminate.
  - intros [|i] j t u H; discriminate.
  - intros o. rewrite Hv. reflexivity.
Qed.
End SR.
