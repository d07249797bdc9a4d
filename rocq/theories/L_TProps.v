(** Proofs: what holds in executions by threads. *)
From Verif Require Import Base L_Base M_RdyGrp S_RdyGrp L_RdyGrp M_Queue S_Queue L_Queue
  M_MemPool S_MemPool L_MemPool M_Kernel S_Kernel L_KMem L_KQueue L_Kernel L_KRun L_KBoot L_KProps L_KSeq L_KSched
  M_Threads S_Threads L_Threads L_TRun.
From Coq Require Import Permutation.
Local Open Scope N_scope.

(** *** Dispatches in progress *)
Inductive nodisp : prog -> Prop :=
| nd_ret v : nodisp (Ret v)
| nd_user u k : (forall o e, u <> UDispatch o e) -> nodisp k -> nodisp (User u k)
| nd_atom f : (forall s s' labs p', f s = Ok (s', labs, p') -> nodisp p') -> nodisp (Atom f).
Lemma plain_nodisp p : plain p -> nodisp p.
Proof.
  revert p. fix IH 2. intros p H. destruct H as [v|f H]; constructor. intros s s' labs p' E.
  specialize (H s s' labs p' E). destruct H as [_ H]. apply IH. exact H.
Qed.
Lemma ends_nodisp f : ends f -> nodisp (Atom f).
Proof. intros H. constructor. intros s s' labs p' E. destruct (H _ _ _ _ E) as [v ->]. constructor. Qed.
Lemma nodisp_pseq k : (forall v, nodisp (k v)) -> forall p, nodisp p -> nodisp (pseq p k).
Proof.
  intros Hk. fix IH 2. intros p H. destruct H as [v|u p Hu H|f H]; cbn [pseq]; [apply Hk|constructor; auto|].
  constructor. intros s s' labs p' E. destruct (f s) as [[[s1 l1] p1]|] eqn:Ef; [|discriminate].
  injection E as <- <- <-. apply IH. eapply H. exact Ef.
Qed.

Ltac okall E :=
  repeat match type of E with
  | bind ?r _ = Ok _ => let X := fresh "X" in destruct r as [X|] eqn:?; [cbn [bind] in E|discriminate E];
      repeat match goal with Y : (_ * _)%type |- _ => destruct Y end
  end.
Ltac okp E := match type of E with Ok (_, _, ?q) = Ok (_, _, ?p) =>
  assert (Hqp : q = p) by congruence; rewrite <- Hqp; clear Hqp end.
Lemma api_nodisp c op : nodisp (api c op).
Proof.
  destruct op as [esize sig|e|e|lifo o e|ch e sender|ch o|ch o|o|d e|o d|o qs n|ps|o]; cbn [api].
  - apply plain_nodisp, plain_ae.
  - apply plain_nodisp, plain_gc.
  - apply ends_nodisp. intros s s' labs p' E. okall E. injection E as <- <- <-. eauto.
  - apply ends_nodisp, ends_post.
  - constructor. intros s s' labs p' E. okall E. okp E. apply plain_nodisp, plain_pseq, plain_gc.
  - apply ends_nodisp. intros s s' labs p' E. okall E. injection E as <- <- <-. eauto.
  - apply ends_nodisp. intros s s' labs p' E. okall E. injection E as <- <- <-. eauto.
  - apply ends_nodisp. intros s s' labs p' E. okall E. injection E as <- <- <-. eauto.
  - apply ends_nodisp. intros s s' labs p' E. okall E. injection E as <- <- <-. eauto.
  - constructor. intros s s' labs p' E. okall E. destruct o0 as [e|]; injection E as <- <- <-; [|constructor].
    constructor. clear. intros s s' labs p' E. okall E. injection E as <- <- <-.
    apply ends_nodisp. clear. intros s s' labs p' E. okall E. match type of E with (if ?b then _ else _) = _ => destruct b end.
    + injection E as <- <- <-. eauto.
    + okall E. injection E as <- <- <-. eauto.
  - constructor. intros s s' labs p' E. okall E. okp E. apply nodisp_pseq.
    + intros _. constructor; [discriminate|constructor].
    + constructor. clear. intros s s' labs p' E. okall E. injection E as <- <- <-. apply ends_nodisp.
      clear. intros s s' labs p' E. okall E. injection E as <- <- <-. eauto.
  - apply ends_nodisp. intros s s' labs p' E. okall E. injection E as <- <- <-. eauto.
  - constructor. intros s s' labs p' E. okall E. okp E. apply ends_nodisp.
    clear. intros s s' labs p' E. okall E. injection E as <- <- <-. eauto.
Qed.

Definition bots (c : kcfg) (o : nat) (p : prog) : Prop :=
  p = mt_turn c o \/ (exists e k, p = User (UDispatch o e) k /\ nodisp k) \/ nodisp p.
Definition disp_ok (c : kcfg) (t : thread) : Prop :=
  match th_own t with
  | None => forall f, In f (th_stk t) -> nodisp (tf_p f)
  | Some o => exists up f, th_stk t = up ++ [f] /\ (forall g, In g up -> nodisp (tf_p g)) /\ bots c o (tf_p f)
  end.
Definition DInv (c : kcfg) (x : tconf) : Prop :=
  (forall t, In t (t_thr x) -> disp_ok c t) /\
  (forall i j t u o, nth_error (t_thr x) i = Some t -> nth_error (t_thr x) j = Some u ->
     th_own t = Some o -> th_own u = Some o -> i = j).
Definition top_nd (c : kcfg) (own : option nat) (p : prog) (below : list tframe) : Prop :=
  match own, below with Some o, [] => bots c o p | _, _ => nodisp p end.
Lemma nodisp_bots c own p below : nodisp p -> top_nd c own p below.
Proof. intros H. unfold top_nd, bots. destruct own, below; auto. Qed.

(** Replacing the top frame. *)
Lemma disp_top c own w f below : disp_ok c (mkTh own w (f :: below)) -> top_nd c own (tf_p f) below.
Proof.
  unfold disp_ok, top_nd. cbn [th_own th_stk]. destruct own as [o|].
  - intros (up & g & E & H1 & H2). destruct up as [|h up].
    + cbn [app] in E. injection E as -> ->. exact H2.
    + injection E as <- E. destruct below as [|b below]; [destruct up; discriminate|]. apply H1. now left.
  - intros H. apply H. now left.
Qed.
Lemma disp_replace c own w w' f f' below : disp_ok c (mkTh own w (f :: below)) -> top_nd c own (tf_p f') below ->
  disp_ok c (mkTh own w' (f' :: below)).
Proof.
  unfold disp_ok, top_nd. cbn [th_own th_stk]. destruct own as [o|].
  - intros (up & g & E & H1 & H2) H. destruct up as [|h up].
    + cbn [app] in E. injection E as -> ->. exists [], f'. split; [reflexivity|]. split; [intros ? []|exact H].
    + injection E as <- E. exists (f' :: up), g. split; [cbn [app]; now rewrite E|]. split; [|exact H2].
      destruct below as [|b below]; [destruct up; discriminate|]. intros g0 [<-|Hg]; [exact H|]. apply H1. now right.
  - intros H1 H2 g [<-|Hg]; [exact H2|]. apply H1. now right.
Qed.
Lemma disp_push c own w w' f stk : disp_ok c (mkTh own w stk) -> nodisp (tf_p f) -> disp_ok c (mkTh own w' (f :: stk)).
Proof.
  unfold disp_ok. cbn [th_own th_stk]. destruct own as [o|].
  - intros (up & g & -> & H1 & H2) H. exists (f :: up), g. split; [reflexivity|]. split; [|exact H2].
    intros g0 [<-|Hg]; auto.
  - intros H1 H2 g [<-|Hg]; auto.
Qed.
Lemma disp_pop c own w w' f g below : disp_ok c (mkTh own w (f :: g :: below)) -> disp_ok c (mkTh own w' (g :: below)).
Proof.
  unfold disp_ok. cbn [th_own th_stk]. destruct own as [o|].
  - intros (up & h & E & H1 & H2). destruct up as [|u up]; [discriminate|]. injection E as <- E. exists up, h.
    split; [exact E|]. split; [|exact H2]. intros g0 Hg. apply H1. now right.
  - intros H1 g0 Hg. apply H1. now right.
Qed.
Lemma disp_turn c o w : disp_ok c (mkTh (Some o) w [mkTF false [] (mt_turn c o)]).
Proof. exists [], (mkTF false [] (mt_turn c o)). split; [reflexivity|]. split; [intros g []|now left]. Qed.

Lemma top_atom c own f below s s' labs p' : top_nd c own (Atom f) below -> f s = Ok (s', labs, p') -> top_nd c own p' below.
Proof.
  unfold top_nd. intros H E. assert (Hn : nodisp (Atom f) -> nodisp p') by (intros Hn; inversion Hn; subst; eauto).
  destruct own as [o|]; [|destruct below; auto]. destruct below; [|auto].
  destruct H as [H|[(e & k & H & _)|H]]; [|discriminate|right; right; auto].
  assert (Ef : f = match mt_turn c o with Atom g => g | _ => f end) by (rewrite <- H; reflexivity).
  cbn [mt_turn] in Ef. rewrite Ef in E. clear Ef H Hn.
  destruct (rd (k_ao s) o) as [a|]; [|discriminate]. cbn [bind sma_get] in E. destruct (Nat.eqb (q_qty (ao_q a)) 0).
  - injection E as <- <- <-. right. right. constructor.
  - okall E. injection E as <- <- <-. right. left. eexists _, _. split; [reflexivity|]. apply plain_nodisp, plain_gc.
Qed.
Lemma top_user c own u k below : top_nd c own (User u k) below -> top_nd c own k below.
Proof.
  unfold top_nd. intros H. assert (Hn : nodisp (User u k) -> nodisp k) by (intros Hn; inversion Hn; subst; auto).
  destruct own as [o|]; [|destruct below; auto]. destruct below; [|auto].
  destruct H as [H|[(e & k' & H & Hk)|H]]; [discriminate| |right; right; auto].
  injection H as _ <-. right. right. exact Hk.
Qed.

Lemma DInv_upd c x s sig l log i t t' : DInv c x -> nth_error (t_thr x) i = Some t -> th_own t' = th_own t -> disp_ok c t' ->
  DInv c (mkTC s sig l (set_thr x i t') log).
Proof.
  intros [D1 D2] Ht Eo Hd. split; cbn [t_thr]; unfold set_thr.
  - intros u Hu. apply In_nth_error in Hu. destruct Hu as [j Hj]. eapply upd_cases in Hj; [|exact Ht].
    destruct Hj as [[_ ->]|[_ Hj]]; [exact Hd|]. apply D1. eapply nth_error_In; eauto.
  - intros j k u v o H1 H2 E1 E2. eapply upd_cases in H1; [|exact Ht]. eapply upd_cases in H2; [|exact Ht].
    destruct H1 as [[-> ->]|[_ H1]], H2 as [[-> ->]|[_ H2]]; rewrite ?Eo in *; eauto.
Qed.
Lemma tstep_DInv c statics strict x ch x' : DInv c x -> tstep c statics strict x ch = Ok x' -> DInv c x'.
Proof.
  intros HD. destruct ch as [|o|i a]; cbn [tstep].
  - intros E. injection E as <-. destruct HD as [D1 D2]. split; cbn [t_thr].
    + intros t Ht. apply in_app_iff in Ht. destruct Ht as [Ht|[<-|[]]]; [auto|]. intros f [<-|[]].
      constructor; [discriminate|constructor].
    + intros i j t u o H1 H2 E1 E2. apply app_cases in H1, H2.
      destruct H1 as [[-> ->]|H1], H2 as [[-> ->]|H2]; try discriminate. eauto.
  - destruct (registered (t_s x) o && _) eqn:Er; intros E; injection E as <-; [|exact HD].
    apply andb_true_iff in Er. destruct Er as [_ Er]. rewrite forallb_forall in Er. destruct HD as [D1 D2].
    assert (Hno : forall i u o', nth_error (t_thr x) i = Some u -> th_own u = Some o' -> Some o = Some o' -> False).
    { intros i u o' Hu Eu Eo. injection Eo as <-. specialize (Er u ltac:(eapply nth_error_In; eauto)).
      rewrite Eu, Nat.eqb_refl in Er. discriminate. }
    split; cbn [t_thr].
    + intros t Ht. apply in_app_iff in Ht. destruct Ht as [Ht|[<-|[]]]; [auto|]. apply disp_turn.
    + intros i j t u o' H1 H2 E1 E2. apply app_cases in H1, H2.
      destruct H1 as [[-> ->]|H1], H2 as [[-> ->]|H2]; [reflexivity| | |eauto]; exfalso; eauto.
  - destruct (nth_error (t_thr x) i) as [t|] eqn:Ht; [|intros E; now injection E as <-].
    assert (Hd : disp_ok c t) by (apply (proj1 HD); eapply nth_error_In; eauto).
    destruct t as [own w stk]. cbn [th_own th_wait th_stk].
    destruct a as [|op|]; destruct w; try (intros E; now injection E as <-).
    + destruct stk as [|top below]; [intros E; now injection E as <-|].
      pose proof (disp_top _ _ _ _ _ Hd) as Htop. destruct (tf_p top) as [v|f|u k] eqn:Ep.
      * intros E. injection E as <-. eapply DInv_upd; [exact HD|exact Ht| |].
        -- destruct below, own; reflexivity.
        -- destruct below as [|g below]; [|eapply disp_pop; exact Hd]. destruct own; [apply disp_turn|intros f []].
      * destruct (f (t_s x)) as [[[s' labs] p']|] eqn:Ef; [|discriminate]. cbn zeta.
        destruct (over _ _ _); intros E; injection E as <-; [exact HD|].
        eapply DInv_upd; [exact HD|exact Ht|reflexivity|]. eapply disp_replace; [exact Hd|]. cbn [tf_p].
        eapply top_atom; eauto.
      * intros E. injection E as <-. eapply DInv_upd; [exact HD|exact Ht|reflexivity|].
        eapply disp_replace; [exact Hd|]. cbn [tf_p]. eapply top_user; eauto.
    + destruct stk as [|top below]; [intros E; now injection E as <-|].
      destruct (tf_p top); try (intros E; now injection E as <-).
      destruct (grab _ _ _ _ _ _ _) as [[mine l']|]; [|intros E; now injection E as <-].
      destruct (negb strict || _); intros E; injection E as <-; [|exact HD].
      eapply DInv_upd; [exact HD|exact Ht|reflexivity|]. eapply disp_push; [exact Hd|]. apply api_nodisp.
    + destruct own as [o|]; [|intros E; now injection E as <-]. destruct (wait_event _ _); intros E; injection E as <-; [|exact HD].
      eapply DInv_upd; [exact HD|exact Ht|reflexivity|]. exact Hd.
Qed.
Lemma trun_DInv c statics strict chs : forall x x', DInv c x -> trun c statics strict x chs = Ok x' -> DInv c x'.
Proof.
  induction chs as [|ch t IH]; intros x x' HD E; cbn [trun] in E; [congruence|].
  destruct (tstep c statics strict x ch) as [y|] eqn:Ey; [|discriminate]. cbn [bind] in E.
  eapply IH; [|exact E]. eapply tstep_DInv; eauto.
Qed.

Definition disp_of (o : nat) (f : tframe) : list N :=
  match tf_p f with User (UDispatch o' e) _ => if Nat.eqb o o' then [e] else [] | _ => [] end.
Lemma nodisp_none o f : nodisp (tf_p f) -> disp_of o f = [].
Proof. unfold disp_of. intros H. destruct H as [| u k Hu |]; try reflexivity. destruct u; try reflexivity. now destruct (Hu o0 e). Qed.
Lemma nodisps_none o l : (forall f, In f l -> nodisp (tf_p f)) -> concat (map (disp_of o) l) = [].
Proof.
  induction l as [|f l IH]; intros H; [reflexivity|]. cbn [map concat]. rewrite nodisp_none by (apply H; now left).
  apply IH. intros g Hg. apply H. now right.
Qed.
Lemma thread_disp c o t : disp_ok c t -> (length (concat (map (disp_of o) (th_stk t))) <= 1)%nat /\
  (th_own t <> Some o -> concat (map (disp_of o) (th_stk t)) = []).
Proof.
  unfold disp_ok. destruct (th_own t) as [o'|].
  - intros (up & f & -> & H1 & H2). rewrite map_app, concat_app, nodisps_none by exact H1. cbn [map concat app].
    rewrite app_nil_r. destruct H2 as [H2|[(e & k & H2 & _)|H2]].
    + unfold disp_of. rewrite H2. cbn. auto.
    + unfold disp_of. rewrite H2. destruct (Nat.eqb_spec o o') as [->|]; cbn; split; auto. congruence.
    + rewrite nodisp_none by exact H2. cbn. auto.
  - intros H. rewrite nodisps_none by exact H. cbn. auto.
Qed.
Lemma one_at_a_time c x o : DInv c x -> (length (dispatching x o) <= 1)%nat.
Proof.
  intros [D1 D2]. unfold dispatching. fold (disp_of o).
  change (length (concat (map (fun t => concat (map (disp_of o) (th_stk t))) (t_thr x))) <= 1)%nat.
  revert D1 D2. induction (t_thr x) as [|t l IH]; intros D1 D2; [cbn; lia|]. cbn [map concat]. rewrite app_length.
  destruct (thread_disp c o t (D1 t ltac:(now left))) as [H1 H2].
  assert (IHl : (length (concat (map (fun t => concat (map (disp_of o) (th_stk t))) l)) <= 1)%nat).
  { apply IH; [intros u Hu; apply D1; now right|].
    intros i j u v o' A B E1 E2. assert (S i = S j) by (apply (D2 (S i) (S j) u v o'); assumption). lia. }
  destruct (th_own t) as [o'|] eqn:Eo; [|rewrite H2 by discriminate; cbn; lia].
  destruct (Nat.eq_dec o' o) as [->|Hne]; [|rewrite H2 by congruence; cbn; lia].
  assert (E : concat (map (fun t => concat (map (disp_of o) (th_stk t))) l) = []); [|rewrite E; cbn; lia].
  assert (Hall : forall u, In u l -> concat (map (disp_of o) (th_stk u)) = []).
  { intros u Hu. destruct (thread_disp c o u (D1 u ltac:(now right))) as [_ H3]. apply H3. intros Eu.
    apply In_nth_error in Hu. destruct Hu as [j Hj].
    specialize (D2 0%nat (S j) t u o eq_refl Hj Eo Eu). discriminate. }
  clear - Hall. induction l as [|u l IH]; [reflexivity|]. cbn [map concat]. rewrite Hall by now left. cbn [app].
  apply IH. intros v Hv. apply Hall. now right.
Qed.

Section P.
Context (c : kcfg) (mem0 : @mem cell) (statics : list (N * N)) (prios : list N)
  (dqs : list (list (option N) * nat)) (pools : list (N * N * N)) (rs : list N).
Context (SO : sys_ok c mem0 statics prios dqs pools rs).
Notation PB := (pool_lists pools rs).
Notation KInv := (KInv c statics PB mem0 rs prios (length dqs)).
Notation CInv := (CInv c statics PB mem0 rs prios (length dqs)).
Notation TInv := (TInv c statics PB mem0 rs prios (length dqs)).
Notation t_reachable := (t_reachable c mem0 statics prios dqs pools).
Notation OK := (OK c mem0 statics prios dqs pools rs SO).
Notation Hmax := (Hmax c mem0 statics prios dqs pools rs SO).
Notation Hasrt := (Hasrt c mem0 statics prios dqs pools rs SO).

Lemma t_system_ok : exists s, start c mem0 prios dqs pools = Ok s /\
  forall chs,
    (exists x, trun c statics true (tconf0 s) chs = Ok x /\ TInv x) \/
    (exists f, trun c statics true (tconf0 s) chs = Fault f /\ resource_fault f).
Proof.
  destruct (start_ok c mem0 statics prios dqs pools rs SO) as (s & E & HI & Hv & Hq). exists s. split; [exact E|]. intros chs.
  apply trun_inv; [exact OK|exact Hmax|exact Hasrt|]. apply tconf0_inv; auto using OK, Hmax, Hasrt.
Qed.
Lemma t_every_interleaving : exists s, start c mem0 prios dqs pools = Ok s /\
  forall chs, (exists x, trun c statics true (tconf0 s) chs = Ok x) \/
              (exists f, trun c statics true (tconf0 s) chs = Fault f /\ resource_fault f).
Proof.
  destruct t_system_ok as (s & E & H). exists s. split; [exact E|]. intros chs.
  destruct (H chs) as [(x & Ex & _)|Hf]; eauto.
Qed.
Lemma t_reach_inv x : t_reachable x -> TInv x.
Proof.
  intros (s & chs & Es & Ex). destruct t_system_ok as (s' & E & H).
  assert (s' = s) by congruence. subst s'. destruct (H chs) as [(x' & Ex' & HC)|(f & Ef & _)]; congruence.
Qed.

(** The state of the kernel, all that is held put together. *)
Definition flat (x : tconf) : conf := mkC (t_s x) (tled_all x) [] (t_log x).
Lemma flat_inv x : TInv x -> CInv (flat x).
Proof. intros []. constructor; auto. exact I. Qed.

Lemma t_dispatching x o : t_reachable x -> (length (dispatching x o) <= 1)%nat.
Proof.
  intros (s & chs & _ & Ex). eapply one_at_a_time, trun_DInv; [|exact Ex].
  split; [intros t []|]. intros [|i] j t u o' H; discriminate.
Qed.

(** *** Waking up *)
Lemma no_lost_wakeup x o : TInv x -> going_to_wait x o -> ao_view (t_s x) o <> [] -> t_sig x o = true.
Proof.
  intros HT (t & Ht & Eo & Hw) Hv. apply In_nth_error in Ht. destruct Ht as [i Ht].
  destruct (ti_bot _ _ _ _ _ _ _ _ HT i t o Ht Eo) as (up & f & E & H1 & H2).
  destruct Hw as [Hw|(g & v & Eg & Ep & Hne)].
  - apply H1; auto.
  - rewrite Eg in E. destruct up as [|h up]; [|destruct up; discriminate]. injection E as <-. rewrite Ep in H2.
    destruct H2 as [H2|[H2|[_ H2]]]; [discriminate| |auto]. inversion H2; subst. congruence.
Qed.

(** *** One thread going on by itself *)
Lemma lone_atom x i own act led f below s' labs p' : TInv x ->
  nth_error (t_thr x) i = Some (mkTh own false (mkTF act led (Atom f) :: below)) -> f (t_s x) = Ok (s', labs, p') ->
  (forall a, refs s' a + cnt (filter is_right (fold_left led_step labs led)) (LRef a) <= refs (t_s x) a + cnt led (LRef a))%nat ->
  exists x', tstep c statics true x (TAct i TGo) = Ok x' /\ TInv x' /\ t_s x' = s' /\
    nth_error (t_thr x') i = Some (mkTh own false (mkTF act (filter is_right (fold_left led_step labs led)) p' :: below)) /\
    t_log x' = t_log x ++ map EL labs ++ user_of p'.
Proof.
  intros HT Ht Ef Hle. set (led' := filter is_right (fold_left led_step labs led)) in *.
  set (x' := mkTC s' (fold_left set_event labs (t_sig x)) (t_led x)
                (set_thr x i (mkTh own false (mkTF act led' p' :: below))) (t_log x ++ map EL labs ++ user_of p')).
  assert (E : tstep c statics true x (TAct i TGo) = Ok x').
  { cbn [tstep]. rewrite Ht. cbn [th_wait th_stk th_own tf_p tf_led tf_act]. rewrite Ef. cbn zeta. fold led'. fold x'.
    rewrite not_over; [reflexivity|]. intros a Ha.
    pose proof (ti_b _ _ _ _ _ _ _ _ HT a ltac:(intros Hs; apply is_static_stat in Hs; congruence)) as Hb.
    rewrite tot_holders in Hb. specialize (Hle a).
    assert (El : (cnt (tled_all x') (LRef a) + cnt led (LRef a) = cnt (tled_all x) (LRef a) + cnt led' (LRef a))%nat).
    { unfold tled_all, x', set_thr. cbn [t_thr t_led]. rewrite !cnt_app.
      pose proof (cnt_upd _ _ _ (mkTh own false (mkTF act led' p' :: below)) (LRef a) Ht) as H.
      rewrite !cnt_top in H. cbn [tf_led] in H. lia. }
    unfold holders in *. unfold refs in Hle. lia. }
  exists x'. split; [exact E|]. split; [|split; [reflexivity|split; [|reflexivity]]].
  - destruct (tstep_inv c statics PB mem0 rs prios (length dqs) OK Hmax Hasrt x (TAct i TGo) HT) as [(x2 & E2 & H2)|(f2 & E2 & _)];
      rewrite E in E2; [|discriminate]. injection E2 as <-. exact H2.
  - cbn [t_thr x']. apply nth_upd_eq. eapply nth_some_lt; eauto.
Qed.
Lemma lone_step x i own top below t' : TInv x ->
  nth_error (t_thr x) i = Some (mkTh own false (top :: below)) ->
  (exists u k, tf_p top = User u k /\ t' = mkTh own false (mkTF false (tf_led top) k :: below)) \/
  (exists v, tf_p top = Ret v /\ below = [] /\ exists o, own = Some o /\
     t' = mkTh own (negb (v =? 0)) [mkTF false [] (mt_turn c o)]) ->
  exists x', tstep c statics true x (TAct i TGo) = Ok x' /\ TInv x' /\ t_s x' = t_s x /\
    nth_error (t_thr x') i = Some t' /\
    t_log x' = t_log x ++ match tf_p top with User _ k => user_of k | _ => [] end.
Proof.
  intros HT Ht Hc.
  assert (HH : exists x', tstep c statics true x (TAct i TGo) = Ok x' /\ t_s x' = t_s x /\
    nth_error (t_thr x') i = Some t' /\ t_log x' = t_log x ++ match tf_p top with User _ k => user_of k | _ => [] end).
  { cbn [tstep]. rewrite Ht. cbn [th_wait th_stk th_own].
    destruct Hc as [(u & k & -> & ->)|(v & -> & -> & o & -> & ->)].
    - eexists. split; [reflexivity|]. split; [reflexivity|]. split; [|reflexivity]. cbn [t_thr].
      apply nth_upd_eq. eapply nth_some_lt; eauto.
    - eexists. split; [reflexivity|]. split; [reflexivity|]. split; [|now rewrite app_nil_r]. cbn [t_thr].
      apply nth_upd_eq. eapply nth_some_lt; eauto. }
  destruct HH as (x' & E & A). exists x'. split; [exact E|]. split; [|exact A].
  destruct (tstep_inv c statics PB mem0 rs prios (length dqs) OK Hmax Hasrt x (TAct i TGo) HT) as [(x2 & E2 & H2)|(f2 & E2 & _)];
    rewrite E in E2; [|discriminate]. injection E2 as <-. exact H2.
Qed.

Lemma lone_get x i o e w : TInv x -> nth_error (t_thr x) i = Some (mkTh (Some o) false [mkTF false [] (mt_turn c o)]) ->
  ao_view (t_s x) o = e :: w ->
  exists x', tstep c statics true x (TAct i TGo) = Ok x' /\ TInv x' /\
    nth_error (t_thr x') i = Some (mkTh (Some o) false [mkTF false [LRef e] (User (UDispatch o e) (fwk_gc c e))]) /\
    t_log x' = t_log x ++ [EL (KGet o e); EU (UDispatch o e)] /\
    (forall o', ao_view (t_s x') o' = if Nat.eqb o' o then w else ao_view (t_s x) o').
Proof.
  intros HT Ht Hv. pose proof (ti_thr _ _ _ _ _ _ _ _ HT i _ Ht) as [Hr _]. destruct (Hr o eq_refl) as (a & Ho & Hreg).
  pose proof (ki_q _ _ _ _ _ _ _ _ _ (ti_k _ _ _ _ _ _ _ _ HT)) as HQ. unfold ao_view in Hv. rewrite Ho in Hv.
  destruct (KQ_get c prios (length dqs) Hmax Hasrt _ _ _ _ _ o a e w HQ Ho Hreg Hv) as (q' & g' & E & Hv' & _ & HQ').
  set (s := t_s x) in *. set (s' := set_rg (set_ao s (upd (k_ao s) o (mkAo (ao_prio a) q'))) g').
  assert (Hrefs : forall y, (refs s' y + (if N.eq_dec e y then 1 else 0) = refs s y)%nat).
  { intros y. pose proof (refs_ao _ s o a q' y Ho eq_refl) as H1. rewrite Hv, Hv' in H1. cbn [count_occ] in H1.
    change (refs s' y) with (refs (set_ao s (upd (k_ao s) o (mkAo (ao_prio a) q'))) y).
    destruct (N.eq_dec e y); lia. }
  destruct (lone_atom x i (Some o) false [] _ [] s' [KGet o e] (User (UDispatch o e) (fwk_gc c e)) HT Ht) as (x' & E1 & HT' & Es & Ht' & Hl).
  - cbv beta. fold s. rewrite (proj2 (rd_ok _ _ _) Ho). cbn [bind].
    destruct (Nat.eqb_spec (q_qty (ao_q a)) 0) as [Hz|_]; [apply q_view_nil in Hz; congruence|].
    cbn [sma_get]. rewrite (proj2 (rd_ok _ _ _) Ho). cbn [bind]. rewrite E. cbn [bind].
    rewrite wr_lt by (eapply nth_some_lt; eauto). cbn [bind]. rewrite rassert_true. reflexivity.
  - intros y. cbn [fold_left led_step filter is_right]. fold s. specialize (Hrefs y). rewrite !cnt_cons.
    destruct (N.eq_dec e y), (litem_dec (LRef e) (LRef y)); try congruence; cbn [cnt count_occ]; lia.
  - exists x'. split; [exact E1|]. split; [exact HT'|]. split; [exact Ht'|]. split; [exact Hl|].
    rewrite Es. intros o'. unfold ao_view, s'. cbn [k_ao set_rg set_ao]. destruct (Nat.eqb_spec o' o) as [->|Hn].
    + rewrite nth_upd_eq by (eapply nth_some_lt; eauto). exact Hv'.
    + rewrite nth_upd_ne by auto. reflexivity.
Qed.
Lemma trun_cons x h t y : tstep c statics true x h = Ok y -> trun c statics true x (h :: t) = trun c statics true y t.
Proof. intros E. cbn [trun]. now rewrite E. Qed.
Lemma trun_app x a b : trun c statics true x (a ++ b) = do y <- trun c statics true x a; trun c statics true y b.
Proof.
  revert x. induction a as [|h t IH]; intros x; cbn [app trun bind]; [reflexivity|].
  destruct (tstep c statics true x h); cbn [bind]; [apply IH|reflexivity].
Qed.

Lemma lone_gc x i o e : TInv x ->
  nth_error (t_thr x) i = Some (mkTh (Some o) false [mkTF false [LRef e] (User (UDispatch o e) (fwk_gc c e))]) ->
  exists n x' labs, trun c statics true x (repeat (TAct i TGo) n) = Ok x' /\ TInv x' /\
    nth_error (t_thr x') i = Some (mkTh (Some o) false [mkTF false [] (mt_turn c o)]) /\
    same_queues (t_s x) (t_s x') /\ t_log x' = t_log x ++ map EL labs.
Proof.
  intros HT Ht. pose proof (ti_k _ _ _ _ _ _ _ _ HT) as HI. set (s := t_s x) in *. set (l := tled_all x) in *.
  assert (Hin : In (LRef e) l).
  { unfold l, tled_all. apply in_app_iff. left. apply in_concat. eexists. split.
    - apply in_map_iff. eexists. split; [reflexivity|]. eapply nth_error_In; exact Ht.
    - now left. }
  assert (Hpos : (0 < holders s l e)%nat).
  { unfold holders. apply cnt_in in Hin. lia. }
  destruct (lone_step x i (Some o) _ [] (mkTh (Some o) false [mkTF false [LRef e] (fwk_gc c e)]) HT Ht) as (x1 & E1 & T1 & S1 & H1 & L1).
  { left. eexists _, _. split; reflexivity. }
  cbn [tf_p user_of fwk_gc] in L1. rewrite app_nil_r in L1. fold s in S1.
  assert (Hfin : forall y act v led, TInv y ->
            nth_error (t_thr y) i = Some (mkTh (Some o) false [mkTF act led (Ret 0)]) -> v = 0 ->
            exists y', tstep c statics true y (TAct i TGo) = Ok y' /\ TInv y' /\ t_s y' = t_s y /\
              nth_error (t_thr y') i = Some (mkTh (Some o) false [mkTF false [] (mt_turn c o)]) /\ t_log y' = t_log y).
  { intros y act v led Ty Hy _.
    destruct (lone_step y i (Some o) _ [] (mkTh (Some o) false [mkTF false [] (mt_turn c o)]) Ty Hy) as (y' & A & B & C & D & F).
    - right. exists 0. split; [reflexivity|]. split; [reflexivity|]. exists o. split; reflexivity.
    - exists y'. cbn [tf_p] in F. rewrite app_nil_r in F. auto 6. }
  destruct (held_event c mem0 statics prios dqs pools rs s l e HI Hpos) as [Hst|[j Hbk]].
  - destruct (gc_static c mem0 statics prios dqs pools rs SO s e ltac:(eauto) Hst) as [sig Eh].
    destruct (lone_atom x1 i (Some o) false [LRef e] _ [] s [] (Ret 0) T1 H1) as (x2 & E2 & T2 & S2 & H2 & L2).
    { cbv beta. rewrite S1, Eh. reflexivity. }
    { intros a. rewrite S1. reflexivity. }
    destruct (Hfin x2 _ 0 _ T2 H2 eq_refl) as (x3 & E3 & T3 & S3 & H3 & L3).
    exists 3%nat, x3, []. cbn [repeat]. rewrite (trun_cons _ _ _ _ E1), (trun_cons _ _ _ _ E2), (trun_cons _ _ _ _ E3).
    split; [reflexivity|]. split; [exact T3|]. split; [exact H3|]. split; [rewrite S3, S2; repeat split|].
    rewrite L3, L2, L1. cbn [map user_of]. now rewrite !app_nil_r.
  - assert (Hns : is_static statics e = false).
    { destruct (is_static statics e) eqn:Es; [|reflexivity]. apply is_static_stat in Es. exfalso.
      eapply (pb_stat _ _ _ OK); [apply inpool_block; exact Hbk|exact Es]. }
    destruct (Nat.eq_dec (holders s l e) 1) as [E|E].
    + destruct (gc_last c mem0 statics prios dqs pools rs SO s l e j HI Hin Hbk E)
        as ((sig & Eh) & Em & Hlt & Hi255 & _ & p & p' & m' & Hp & Ep & _ & _ & _ & _).
      set (s' := set_pools (set_mem s m') (upd (k_ep s) j p') (k_mgr s) (k_next s)) in *.
      edestruct (lone_atom x1 i (Some o) false [LRef e]) as (x2 & E2 & T2 & S2 & H2 & L2); [exact T1|exact H1| | |].
      { cbv beta. rewrite S1, Eh. cbn [bind]. reflexivity. }
      { intros a. rewrite S1. reflexivity. }
      change (1 =? 0) with false in H2. cbv iota in H2.
      edestruct (lone_atom x2 i (Some o) false [LRef e]) as (x3 & E3 & T3 & S3 & H3 & L3); [exact T2|exact H2| | |].
      { cbv beta. rewrite S2, Eh. cbn [bind]. change (1 <? 1) with false. cbv iota zeta.
        rewrite u8_idx by exact Hi255.
        replace (N.of_nat j <? k_next s) with true by (symmetry; now apply N.ltb_lt).
        rewrite rassert_true. cbn [bind]. rewrite Nat2N.id, Em. cbn [bind]. reflexivity. }
      { intros a. rewrite S2. cbn [fold_left led_step rem1 filter is_right].
        destruct (litem_dec (LRef e) (LRef e)) as [_|]; [|congruence]. cbn [filter is_right]. rewrite cnt_cons.
        destruct litem_dec; [discriminate|]. cbn [cnt count_occ]. lia. }
      cbn [fold_left led_step rem1] in H3. destruct (litem_dec (LRef e) (LRef e)) as [_|]; [|congruence].
      cbn [filter is_right] in H3.
      edestruct (lone_atom x3 i (Some o) false [LDead j e]) as (x4 & E4 & T4 & S4 & H4 & L4); [exact T3|exact H3| | |].
      { cbv beta. rewrite S3, Ep. cbn [bind]. reflexivity. }
      { intros a. rewrite S3. cbn [fold_left led_step rem1].
        destruct (litem_dec (LDead j e) (LDead j e)) as [_|]; [|congruence]. cbn [filter cnt count_occ].
        change (refs s' a) with (refs s a). lia. }
      destruct (Hfin x4 _ 0 _ T4 H4 eq_refl) as (x5 & E5 & T5 & S5 & H5 & L5).
      exists 5%nat, x5, [KDead j e; KFree j e]. cbn [repeat].
      rewrite (trun_cons _ _ _ _ E1), (trun_cons _ _ _ _ E2), (trun_cons _ _ _ _ E3), (trun_cons _ _ _ _ E4), (trun_cons _ _ _ _ E5).
      split; [reflexivity|]. split; [exact T5|]. split; [exact H5|]. split; [rewrite S5, S4; repeat split|].
      rewrite L5, L4, L3, L2, L1. cbn [map user_of app]. rewrite ?app_nil_r, <- ?app_assoc. reflexivity.
    + destruct (gc_more c mem0 statics prios dqs pools rs SO s l e j HI Hin Hbk) as (sig & m' & Eh & Ew & _ & _).
      { pose proof (ti_b _ _ _ _ _ _ _ _ HT e ltac:(intros Hs; apply is_static_stat in Hs; congruence)) as Hb.
        rewrite tot_holders in Hb. fold s l in Hb. lia. }
      edestruct (lone_atom x1 i (Some o) false [LRef e]) as (x2 & E2 & T2 & S2 & H2 & L2); [exact T1|exact H1| | |].
      { cbv beta. rewrite S1, Eh. cbn [bind]. reflexivity. }
      { intros a. rewrite S1. reflexivity. }
      destruct (N.eqb_spec (N.of_nat (holders s l e)) 0) as [|_]; [lia|].
      edestruct (lone_atom x2 i (Some o) false [LRef e]) as (x3 & E3 & T3 & S3 & H3 & L3); [exact T2|exact H2| | |].
      { cbv beta. rewrite S2, Eh. cbn [bind].
        replace (1 <? N.of_nat (holders s l e)) with true by (symmetry; apply N.ltb_lt; lia).
        cbv iota. rewrite Ew. cbn [bind]. reflexivity. }
      { intros a. rewrite S2. cbn [fold_left led_step rem1].
        destruct (litem_dec (LRef e) (LRef e)) as [_|]; [|congruence]. cbn [filter cnt count_occ].
        change (refs (set_mem s m') a) with (refs s a). lia. }
      destruct (Hfin x3 _ 0 _ T3 H3 eq_refl) as (x4 & E4 & T4 & S4 & H4 & L4).
      exists 4%nat, x4, [KDec e]. cbn [repeat].
      rewrite (trun_cons _ _ _ _ E1), (trun_cons _ _ _ _ E2), (trun_cons _ _ _ _ E3), (trun_cons _ _ _ _ E4).
      split; [reflexivity|]. split; [exact T4|]. split; [exact H4|]. split; [rewrite S4, S3; repeat split|].
      rewrite L4, L3, L2, L1. cbn [map user_of app]. rewrite ?app_nil_r, <- ?app_assoc. reflexivity.
Qed.

(** Its queue is drained. *)
Lemma lone_drain : forall n x i o, TInv x ->
  nth_error (t_thr x) i = Some (mkTh (Some o) false [mkTF false [] (mt_turn c o)]) ->
  length (ao_view (t_s x) o) = n ->
  exists k x', trun c statics true x (repeat (TAct i TGo) k) = Ok x' /\ TInv x' /\
    nth_error (t_thr x') i = Some (mkTh (Some o) true [mkTF false [] (mt_turn c o)]) /\
    (forall o', ao_view (t_s x') o' = if Nat.eqb o' o then [] else ao_view (t_s x) o') /\
    dispatches (t_log x') = dispatches (t_log x) ++ map (pair o) (ao_view (t_s x) o).
Proof.
  induction n as [|n IH]; intros x i o HT Ht Hn.
  - apply length_zero_iff_nil in Hn. rewrite Hn.
    pose proof (ti_thr _ _ _ _ _ _ _ _ HT i _ Ht) as [Hr _]. destruct (Hr o eq_refl) as (a & Ho & Hreg).
    destruct (lone_atom x i (Some o) false [] _ [] (t_s x) [] (Ret 1) HT Ht) as (x1 & E1 & T1 & S1 & H1 & L1).
    { cbv beta. rewrite (proj2 (rd_ok _ _ _) Ho). cbn [bind]. unfold ao_view in Hn. rewrite Ho in Hn.
      apply q_view_nil in Hn. rewrite Hn. reflexivity. }
    { intros y. reflexivity. }
    destruct (lone_step x1 i (Some o) _ [] (mkTh (Some o) true [mkTF false [] (mt_turn c o)]) T1 H1) as (x2 & E2 & T2 & S2 & H2 & L2).
    { right. exists 1. split; [reflexivity|]. split; [reflexivity|]. exists o. split; reflexivity. }
    exists 2%nat, x2. cbn [repeat]. rewrite (trun_cons _ _ _ _ E1), (trun_cons _ _ _ _ E2).
    split; [reflexivity|]. split; [exact T2|]. split; [exact H2|]. split.
    + intros o'. rewrite S2, S1. destruct (Nat.eqb_spec o' o) as [->|]; [exact Hn|reflexivity].
    + rewrite L2, L1. cbn [tf_p map user_of]. now rewrite !app_nil_r.
  - destruct (ao_view (t_s x) o) as [|e w] eqn:Hv; [discriminate|].
    destruct (lone_get x i o e w HT Ht Hv) as (x1 & E1 & T1 & H1 & L1 & V1).
    destruct (lone_gc x1 i o e T1 H1) as (k2 & x2 & labs & E2 & T2 & H2 & Q2 & L2).
    assert (V2 : forall o', ao_view (t_s x2) o' = if Nat.eqb o' o then w else ao_view (t_s x) o').
    { intros o'. rewrite <- V1. destruct Q2 as (Eq & _). unfold ao_view. now rewrite Eq. }
    destruct (IH x2 i o T2 H2) as (k3 & x3 & E3 & T3 & H3 & V3 & L3).
    { rewrite V2, Nat.eqb_refl. cbn [length] in Hn. lia. }
    exists (1 + (k2 + k3))%nat, x3. cbn [Nat.add repeat]. rewrite (trun_cons _ _ _ _ E1), repeat_app, trun_app, E2. cbn [bind].
    split; [exact E3|]. split; [exact T3|]. split; [exact H3|]. split.
    + intros o'. rewrite V3, V2. destruct (Nat.eqb o' o); reflexivity.
    + rewrite L3, L2, L1, V2, Nat.eqb_refl, !dispatches_app, dispatches_EL. cbn [dispatches map concat app].
      rewrite <- !app_assoc. reflexivity.
Qed.
Lemma thread_drains x i o : TInv x -> at_turn c x i o -> ao_view (t_s x) o <> [] ->
  exists chs x', (forall ch, In ch chs -> ch = TAct i TGo \/ ch = TAct i TWake) /\
    trun c statics true x chs = Ok x' /\ (forall o', ao_view (t_s x') o' = if Nat.eqb o' o then [] else ao_view (t_s x) o') /\
    dispatches (t_log x') = dispatches (t_log x) ++ map (pair o) (ao_view (t_s x) o).
Proof.
  intros HT (w & Ht) Hv. destruct w.
  - assert (Hs : t_sig x o = true).
    { apply no_lost_wakeup; auto. eexists. split; [eapply nth_error_In; exact Ht|]. split; [reflexivity|now left]. }
    destruct (tstep_inv c statics PB mem0 rs prios (length dqs) OK Hmax Hasrt x (TAct i TWake) HT) as [(x1 & E1 & T1)|(f & E1 & _)];
      pose proof E1 as E1'; cbn [tstep] in E1; rewrite Ht in E1; cbn [th_wait th_stk th_own] in E1; unfold wait_event in E1; rewrite Hs in E1; [|discriminate].
    injection E1 as <-. set (x1 := mkTC _ _ _ _ _) in *.
    assert (H1 : nth_error (t_thr x1) i = Some (mkTh (Some o) false [mkTF false [] (mt_turn c o)])).
    { apply nth_upd_eq. eapply nth_some_lt; eauto. }
    destruct (lone_drain _ x1 i o T1 H1 eq_refl) as (k & x2 & E2 & _ & _ & V2 & L2).
    exists (TAct i TWake :: repeat (TAct i TGo) k), x2. split.
    + intros ch [<-|Hc]; [now right|]. left. eapply repeat_spec; eauto.
    + rewrite (trun_cons _ _ _ _ E1'). auto.
  - destruct (lone_drain _ x i o HT Ht eq_refl) as (k & x2 & E2 & _ & _ & V2 & L2).
    exists (repeat (TAct i TGo) k), x2. split; [|auto]. intros ch Hc. left. eapply repeat_spec; eauto.
Qed.
End P.
