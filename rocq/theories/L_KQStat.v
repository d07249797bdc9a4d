(** Proofs: the statistics of the queues of an application. *)
From Verif Require Import Base L_Base M_RdyGrp S_RdyGrp L_RdyGrp M_Queue S_Queue L_Queue M_MemPool M_Kernel S_Kernel
  L_KMem L_KQueue L_Kernel L_KRun L_KBoot L_KProps L_App M_KTrc S_KQStat.
Local Open Scope nat_scope.

(** What waits, least room, and the two counters; what a label does to them. *)
Definition figs (q : queue N) := (q_qty q, q_nmin q, nputs (q_info q), ngets (q_info q)).
Definition fstep (n : nat) (nm : qname) (r : option (nat * nat * N * N)) (x : entry) :=
  match r with
  | None => None
  | Some (k, m, p, g) =>
    if is_in nm x then (if k <? n then Some (S k, Nat.min m (n - S k), u16 (p + 1), g) else None)
    else if is_out nm x then match k with S k => Some (k, m, p, u16 (g + 1)) | O => None end
    else r
  end.
Definition keep (nm : qname) (q : queue N) (labs : list klab) (q' : queue N) : Prop :=
  q_nelems q' = q_nelems q /\ nreads (q_info q') = nreads (q_info q) /\ nfull (q_info q') = nfull (q_info q) /\
  fold_left (fstep (q_nelems q) nm) (map EL labs) (Some (figs q)) = Some (figs q').
Definition F (s : kst) (labs : list klab) (s' : kst) : Prop :=
  forallb (fun x => match x with KInit _ => false | _ => true end) labs = true /\
  forall nm q, the_queue s nm = Some q -> exists q', the_queue s' nm = Some q' /\ keep nm q labs q'.
Definition fresh (q : queue N) : Prop := q_qty q = 0 /\ q_nmin q = q_nelems q /\ q_info q = qinfo0.
Definition QS (s : kst) (labs : list klab) (s' : kst) : Prop :=
  F s labs s' \/
  exists o, labs = [KInit o] /\ forall nm q, the_queue s nm = Some q -> exists q', the_queue s' nm = Some q' /\
    if inits nm (EL (KInit o)) then fresh q' else q' = q.
Definition quiet_lab (x : klab) : bool :=
  match x with KInit _ | KPut _ _ _ | KGet _ _ | KDefer _ _ | KUndefer _ _ => false | _ => true end.
Lemma fstep_quiet n nm labs : forall r, forallb quiet_lab labs = true -> fold_left (fstep n nm) (map EL labs) (Some r) = Some r.
Proof.
  induction labs as [|x t IH]; intros [[[k m] p] g] H; [reflexivity|]. cbn [forallb map fold_left] in *.
  apply andb_true_iff in H. destruct H as [H1 H2]. destruct x; try discriminate; destruct nm; cbn [fstep is_in is_out]; now apply IH.
Qed.
Lemma F_same s s' labs : k_ao s' = k_ao s -> k_dq s' = k_dq s -> forallb quiet_lab labs = true -> F s labs s'.
Proof.
  intros E1 E2 H. split.
  - rewrite forallb_forall in *. intros x Hx. specialize (H x Hx). now destruct x.
  - intros nm q Hq. exists q. split.
    + destruct nm; cbn [the_queue] in *; congruence.
    + unfold keep. rewrite fstep_quiet by exact H. auto.
Qed.
Lemma F_app s l1 s1 l2 s2 : F s l1 s1 -> F s1 l2 s2 -> F s (l1 ++ l2) s2.
Proof.
  intros [A1 B1] [A2 B2]. split; [now rewrite forallb_app, A1, A2|]. intros nm q Hq.
  destruct (B1 nm q Hq) as (q1 & Hq1 & K1 & K2 & K3 & K4). destruct (B2 nm q1 Hq1) as (q2 & Hq2 & L1 & L2 & L3 & L4).
  exists q2. split; [exact Hq2|]. unfold keep. rewrite map_app, fold_left_app, K4, <- K1, L4. repeat split; congruence.
Qed.

Section P.
Context (c : kcfg) (Hasrt : q_asrt (k_qc c) = true).
Definition put1 (q q' : queue N) : Prop :=
  q_nelems q' = q_nelems q /\ nreads (q_info q') = nreads (q_info q) /\ nfull (q_info q') = nfull (q_info q) /\ q_qty q < q_nelems q /\
  figs q' = (S (q_qty q), Nat.min (q_nmin q) (q_nelems q - S (q_qty q)), u16 (nputs (q_info q) + 1), ngets (q_info q)).
Definition get1 (q q' : queue N) : Prop :=
  q_nelems q' = q_nelems q /\ nreads (q_info q') = nreads (q_info q) /\ nfull (q_info q') = nfull (q_info q) /\
  exists k, q_qty q = S k /\ figs q' = (k, q_nmin q, nputs (q_info q), u16 (ngets (q_info q) + 1)).
Lemma lwm_min m n k : lwm_upd m n k = Nat.min m (n - k).
Proof. unfold lwm_upd. destruct (Nat.ltb_spec (n - k) m); lia. Qed.
Lemma rassert_inv b n u : rassert true n b = Ok u -> b = true.
Proof. unfold rassert. destruct b; [reflexivity|discriminate]. Qed.
Lemma put_figs (lifo : bool) q g e q' g' :
  (if lifo then queue_put_lifo (k_qc c) q g (Some e) else queue_put_fifo (k_qc c) q g (Some e)) = Ok (q', g') -> put1 q q'.
Proof.
  destruct lifo; unfold queue_put_lifo, queue_put_fifo; rewrite Hasrt; intros H; binv H; binv H;
    match goal with H : rassert _ 223 _ = _ |- _ => apply rassert_inv in H; rename H into Hl | H : rassert _ 265 _ = _ |- _ => apply rassert_inv in H; rename H into Hl end;
    apply Nat.ltb_lt in Hl; (destruct (Nat.leb_spec (q_nelems q) (q_qty q)); [lia|]); cbv zeta in H; binv H; binv H; injection H as <- <-;
    unfold put1, figs; cbn [q_nelems q_qty q_nmin q_info nreads nfull nputs ngets iu_put]; rewrite lwm_min; auto.
Qed.
Lemma take_figs q g q' g' e : q_qty q <> 0 -> queue_take (k_qc c) q g = Ok (q', g', e) -> get1 q q'.
Proof.
  intros Hz. unfold queue_take. intros H. binv H. cbv zeta in H.
  assert (E1 : exists k, q_qty q = S k) by (destruct (q_qty q); [congruence|eauto]). destruct E1 as [k Ek].
  assert (Hq : q' = mkQ (q_sto q) (q_nelems q) (q_pin q) (if S (q_pout q) =? q_nelems q then 0 else S (q_pout q)) (dec_qty (k_qc c) (q_qty q)) (q_nmin q) (q_sma q) (iu_get (q_info q))).
  { destruct (q_sma q); [|now injection H as <- <- <-]. destruct (_ =? 0) eqn:E0; [binv H|]; now injection H as <- <- <-. }
  subst q'. unfold get1, figs. cbn [q_nelems q_qty q_nmin q_info nreads nfull nputs ngets iu_get]. rewrite Ek. cbn [dec_qty]. eauto 8.
Qed.
Lemma get_figs q g q' g' e : queue_get (k_qc c) q g = Ok (q', g', Some e) -> get1 q q'.
Proof.
  unfold queue_get. rewrite Hasrt. intros H. destruct (q_sma q).
  - binv H. apply rassert_inv in E. apply negb_true_iff, Nat.eqb_neq in E. eapply take_figs; eauto.
  - destruct (Nat.eqb_spec (q_qty q) 0) as [E|E]; [discriminate|]. eapply take_figs; eauto.
Qed.
Lemma get_none q g q' g' : q_sma q = None -> q_good q -> queue_get (k_qc c) q g = Ok (q', g', None) ->
  q_nelems q' = q_nelems q /\ nreads (q_info q') = nreads (q_info q) /\ nfull (q_info q') = nfull (q_info q) /\ figs q' = figs q.
Proof.
  unfold queue_get. intros -> [sto Hg] H. destruct (Nat.eqb_spec (q_qty q) 0) as [E|E]; [now injection H as <- <-|exfalso].
  unfold queue_take in H. binv H. apply rd_ok in E0. cbv zeta in H.
  destruct Hg as [Hpos Hlen Hfit Hqty Hcap Hout Hin Hitem _]. rewrite map_length, q_view_length in *.
  destruct (q_view q) as [|y t] eqn:Ev; [apply q_view_nil in Ev; congruence|].
  specialize (Hitem 0 (Some y) eq_refl). replace (q_pout q + 0) with (q_pout q) in Hitem by lia.
  rewrite widx_mod in Hitem by lia. rewrite Nat.mod_small in Hitem by lia. rewrite Hitem in E0. injection E0 as <-.
  destruct (q_sma q); [destruct (_ =? 0); [binv H|]|]; discriminate.
Qed.
(** One queue replaced. *)
Definition put_q (s : kst) (nm : qname) (q : queue N) (s' : kst) : Prop :=
  forall nm', the_queue s' nm' = match nm, nm' with
    | QAo o, QAo o' => if Nat.eqb o o' then Some q else the_queue s nm'
    | QDq o, QDq o' => if Nat.eqb o o' then Some q else the_queue s nm'
    | _, _ => the_queue s nm' end.
Definition lab_in (nm : qname) (lifo : bool) (e : N) : klab := match nm with QAo o => KPut lifo o e | QDq d => KDefer d e end.
Definition lab_out (nm : qname) (e : N) : klab := match nm with QAo o => KGet o e | QDq d => KUndefer d e end.
Lemma is_in_lab nm nm' lifo e : is_in nm' (EL (lab_in nm lifo e)) = match nm, nm' with QAo o, QAo o' | QDq o, QDq o' => Nat.eqb o' o | _, _ => false end.
Proof. now destruct nm, nm'. Qed.
Lemma is_out_lab nm nm' e : is_out nm' (EL (lab_out nm e)) = match nm, nm' with QAo o, QAo o' | QDq o, QDq o' => Nat.eqb o' o | _, _ => false end.
Proof. now destruct nm, nm'. Qed.
Lemma is_in_out nm nm' e : is_in nm' (EL (lab_out nm e)) = false.
Proof. now destruct nm, nm'. Qed.
Lemma is_out_in nm nm' lifo e : is_out nm' (EL (lab_in nm lifo e)) = false.
Proof. now destruct nm, nm'. Qed.
Lemma put_q_cases s nm q1 s' nm' q : put_q s nm q1 s' -> the_queue s nm' = Some q ->
  (nm' = nm /\ the_queue s' nm' = Some q1) \/
  (the_queue s' nm' = Some q /\ match nm, nm' with QAo o, QAo o' | QDq o, QDq o' => Nat.eqb o' o | _, _ => false end = false).
Proof.
  intros H Hq. rewrite (H nm'). destruct nm as [o|o], nm' as [o'|o']; try (right; now split).
  - rewrite (Nat.eqb_sym o' o). destruct (Nat.eqb_spec o o') as [->|]; [left; now split|right; now split].
  - rewrite (Nat.eqb_sym o' o). destruct (Nat.eqb_spec o o') as [->|]; [left; now split|right; now split].
Qed.
Lemma F_in s nm q q1 s' lifo e : the_queue s nm = Some q -> put1 q q1 -> put_q s nm q1 s' -> F s [lab_in nm lifo e] s'.
Proof.
  intros Hq (K1 & K2 & K3 & K4 & K5) HP. split; [now destruct nm|]. intros nm' q0 Hq0.
  destruct (put_q_cases _ _ _ _ _ _ HP Hq0) as [[-> E]|[E Hn]].
  - exists q1. split; [exact E|]. assert (q0 = q) by congruence. subst q0. unfold keep. rewrite K5. split; [exact K1|]. split; [exact K2|]. split; [exact K3|].
    cbn [map fold_left]. unfold figs. unfold fstep. rewrite is_in_lab. replace (match nm with QAo o | QDq o => _ end) with true by (destruct nm; symmetry; apply Nat.eqb_refl).
    destruct (Nat.ltb_spec (q_qty q) (q_nelems q)); [reflexivity|lia].
  - exists q0. split; [exact E|]. unfold keep. split; [reflexivity|]. split; [reflexivity|]. split; [reflexivity|].
    cbn [map fold_left]. unfold figs, fstep. now rewrite is_in_lab, Hn, is_out_in.
Qed.
Lemma F_out s nm q q1 s' e : the_queue s nm = Some q -> get1 q q1 -> put_q s nm q1 s' -> F s [lab_out nm e] s'.
Proof.
  intros Hq (K1 & K2 & K3 & k & K4 & K5) HP. split; [now destruct nm|]. intros nm' q0 Hq0.
  destruct (put_q_cases _ _ _ _ _ _ HP Hq0) as [[-> E]|[E Hn]].
  - exists q1. split; [exact E|]. assert (q0 = q) by congruence. subst q0. unfold keep. rewrite K5. split; [exact K1|]. split; [exact K2|]. split; [exact K3|].
    cbn [map fold_left]. unfold figs. unfold fstep. rewrite is_in_out, is_out_lab. replace (match nm with QAo o | QDq o => _ end) with true by (destruct nm; symmetry; apply Nat.eqb_refl).
    now rewrite K4.
  - exists q0. split; [exact E|]. unfold keep. split; [reflexivity|]. split; [reflexivity|]. split; [reflexivity|].
    cbn [map fold_left]. unfold figs, fstep. now rewrite is_in_out, is_out_lab, Hn.
Qed.
Lemma put_q_ao s s' o a q l : nth_error (k_ao s) o = Some a -> wr (k_ao s) o (mkAo (ao_prio a) q) = Ok l -> k_ao s' = l -> k_dq s' = k_dq s -> put_q s (QAo o) q s'.
Proof.
  intros Ha Hw E1 E2 [o'|d]; cbn [the_queue]; [|now rewrite E2]. unfold wr in Hw. destruct (_ <? _); [|discriminate]. injection Hw as <-.
  rewrite E1. destruct (Nat.eqb_spec o o') as [->|Hn]; [now rewrite nth_upd_eq by (eapply nth_some_lt; eauto)|now rewrite nth_upd_ne].
Qed.
Lemma put_q_dq s s' d q0 q l : nth_error (k_dq s) d = Some q0 -> wr (k_dq s) d q = Ok l -> k_dq s' = l -> k_ao s' = k_ao s -> put_q s (QDq d) q s'.
Proof.
  intros Ha Hw E1 E2 [o'|d']; cbn [the_queue]; [now rewrite E2|]. unfold wr in Hw. destruct (_ <? _); [|discriminate]. injection Hw as <-.
  rewrite E1. destruct (Nat.eqb_spec d d') as [->|Hn]; [now rewrite nth_upd_eq by (eapply nth_some_lt; eauto)|now rewrite nth_upd_ne].
Qed.
Lemma inc_q s e s' : inc_ref s e = Ok s' -> k_ao s' = k_ao s /\ k_dq s' = k_dq s.
Proof. unfold inc_ref. intros H. binv H. destruct x as [[sig n] p]. destruct (p =? 0)%N; [now injection H as <-|]. binv H. now injection H as <-. Qed.
Lemma F_post lifo s o e s' l : post_sec c lifo s o e = Ok (s', l) -> F s l s'.
Proof.
  unfold post_sec. intros H. binv H. apply inc_q in E. destruct E as [I1 I2]. binv H. apply rd_ok in E. binv H. destruct x1 as [q g]. binv H. injection H as <- <-.
  rewrite I1 in E, E1. eapply (F_in s (QAo o) (ao_q x0) q); [cbn [the_queue]; now rewrite E|eapply put_figs; eauto|].
  eapply put_q_ao; eauto.
Qed.

Definition G (s : kst) : Prop := forall d q, nth_error (k_dq s) d = Some q -> q_sma q = None /\ q_good q.
Inductive qsp : prog -> Prop :=
| qsp_ret v : qsp (Ret v)
| qsp_user u k : qsp k -> qsp (User u k)
| qsp_atom f : (forall s s' labs p', G s -> f s = Ok (s', labs, p') -> QS s labs s') ->
    (forall s s' labs p', G s -> f s = Ok (s', labs, p') -> qsp p') -> qsp (Atom f).
Lemma qsp_both f : (forall s s' labs p', G s -> f s = Ok (s', labs, p') -> QS s labs s' /\ qsp p') -> qsp (Atom f).
Proof. intros H. constructor; intros; eapply H; eauto. Qed.
Lemma qsp_pseq p k : qsp p -> (forall v, qsp (k v)) -> qsp (pseq p k).
Proof.
  intros H Hk. induction H as [v|u p H IH|f HR H IH]; cbn [pseq]; [apply Hk|constructor; auto|].
  apply qsp_both. intros s s' labs p' HG E. destruct (f s) as [[[s1 l1] p1]|] eqn:Ef; [|discriminate].
  injection E as <- <- <-. split; [eapply HR; eauto|eapply IH; eauto].
Qed.
Lemma Q_same s s' labs : k_ao s' = k_ao s -> k_dq s' = k_dq s -> forallb quiet_lab labs = true -> QS s labs s'.
Proof. intros. left. now apply F_same. Qed.
Lemma evtPool_q s ep s' b : evtPool_get c s ep = Ok (s', b) -> k_ao s' = k_ao s /\ k_dq s' = k_dq s.
Proof. unfold evtPool_get. intros H. binv H. destruct ep as [j|]; [|discriminate]. binv H. binv H. destruct x1 as [q m]. binv H. now injection H as <- <-. Qed.
Lemma evtPut_q s ep e s' : evtPool_put c s ep e = Ok s' -> k_ao s' = k_ao s /\ k_dq s' = k_dq s.
Proof. unfold evtPool_put. intros H. binv H. destruct ep as [j|]; [|discriminate]. binv H. binv H. destruct x1 as [q m]. binv H. now injection H as <-. Qed.
Lemma q_ae sz sig : qsp (fwk_ae c sz sig).
Proof.
  apply qsp_both. intros s s' labs p' _ H. binv H. binv H. binv H. injection H as <- <- <-.
  split; [now apply Q_same|]. apply qsp_both. intros s1 s1' labs p' _ H. binv H. destruct x2 as [s2 evt].
  binv H. injection H as <- <- <-. apply evtPool_q in E2. destruct E2 as [J1 J2]. split; [apply Q_same; [assumption|assumption|now destruct x1]|].
  apply qsp_both. intros s3 s3' labs p' _ H. binv H. injection H as <- <- <-. split; [apply Q_same; [reflexivity|reflexivity|now destruct x1]|constructor].
Qed.
Lemma q_gc e : qsp (fwk_gc c e).
Proof.
  apply qsp_both. intros s s' labs p' _ H. binv H. destruct x as [[sig n] p]. injection H as <- <- <-.
  split; [now apply Q_same|]. destruct (n =? 0)%N; [constructor|].
  apply qsp_both. intros s1 s1' labs p' _ H. binv H. destruct x as [[sig1 n1] p1]. destruct (1 <? n1)%N.
  - binv H. injection H as <- <- <-. split; [now apply Q_same|constructor].
  - cbv zeta in H. binv H. binv H. injection H as <- <- <-.
    split; [apply Q_same; [reflexivity|reflexivity|now destruct x0]|].
    apply qsp_both. intros s2 s2' labs p' _ H. binv H. injection H as <- <- <-. apply evtPut_q in E3. destruct E3 as [J1 J2].
    split; [apply Q_same; [assumption|assumption|now destruct x0]|constructor].
Qed.
Lemma q_api op : qsp (api c op).
Proof.
  destruct op; cbn [api]; [apply q_ae|apply q_gc|..].
  - apply qsp_both. intros s s' labs p' _ H. binv H. injection H as <- <- <-. apply inc_q in E. destruct E as [J1 J2]. split; [now apply Q_same|constructor].
  - apply qsp_both. intros s s' labs p' _ H. binv H. destruct x as [s1 l]. injection H as <- <- <-. split; [left; eapply F_post; eauto|constructor].
  - apply qsp_both. intros s s' labs p' _ H. binv H. binv H. binv H. destruct x1 as [n [s1 l1]]. injection H as <- <- <-.
    split; [|apply (qsp_pseq (fwk_gc c e) (fun _ => Ret n)); [apply q_gc|constructor]]. left.
    apply (trav_keep (fun w => F s (snd w) (fst w)) _ _ _ _ _) in E1; [exact E1| |].
    + intros p [s2 l2] w' HP H. unfold ps_cb in H. binv H. binv H. destruct x1 as [o|].
      * destruct (match sender with Some o' => _ | None => _ end); [injection H as <-; auto|].
        binv H. destruct x1 as [s3 l3]. injection H as <-. match goal with H : post_sec _ _ _ _ _ = _ |- _ => apply F_post in H end.
        cbn [fst snd] in *. eapply F_app; eauto.
      * destruct sender; [discriminate|]. injection H as <-. auto.
    + cbn [fst snd]. apply inc_q in E. destruct E as [J1 J2]. now apply F_same.
  - apply qsp_both. intros s s' labs p' _ H. do 5 binv H. injection H as <- <- <-. split; [now apply Q_same|constructor].
  - apply qsp_both. intros s s' labs p' _ H. do 5 binv H. injection H as <- <- <-. split; [now apply Q_same|constructor].
  - apply qsp_both. intros s s' labs p' _ H. do 2 binv H. injection H as <- <- <-. split; [now apply Q_same|constructor].
  - apply qsp_both. intros s s' labs p' _ H. binv H. apply inc_q in E. destruct E as [I1 I2]. binv H. apply rd_ok in E. binv H. destruct x1 as [q g]. binv H. injection H as <- <- <-.
    split; [|constructor]. left. rewrite I2 in E, E1. eapply (F_in s (QDq d) x0 q _ false e); [exact E|eapply (put_figs false); eauto|].
    eapply put_q_dq; eauto.
  - apply qsp_both. intros s s' labs p' HG H. binv H. apply rd_ok in E. binv H. destruct x0 as [[q g] [e|]]; binv H; injection H as <- <- <-.
    2:{ split; [|constructor]. left. destruct (HG _ _ E) as [G1 G2]. destruct (get_none _ _ _ _ G1 G2 E0) as (K1 & K2 & K3 & K4).
        split; [reflexivity|]. intros nm q0 Hq0.
        destruct (put_q_cases s (QDq d) q _ nm q0 (put_q_dq s (set_rg (set_dq s x0) g) d x q x0 E E1 eq_refl eq_refl) Hq0) as [[-> Eq]|[Eq Hn]].
        - exists q. split; [exact Eq|]. cbn [the_queue] in Hq0. assert (q0 = x) by congruence. subst q0. unfold keep. cbn. rewrite K4. auto.
        - exists q0. split; [exact Eq|]. unfold keep. cbn. auto. }
    split; [left; eapply (F_out s (QDq d) x q _ e); [exact E|eapply get_figs; eauto|eapply put_q_dq; eauto]|].
    apply qsp_both. intros s1 s1' labs p' _ H. binv H. destruct x1 as [s2 l]. injection H as <- <- <-.
    match goal with H : post_sec _ _ _ _ _ = _ |- _ => apply F_post in H end. split; [now left|].
    apply qsp_both. intros s3 s3' labs p' _ H. binv H. destruct x1 as [[sig n] p]. destruct (n =? 0)%N.
    + injection H as <- <- <-. split; [now apply Q_same|constructor].
    + binv H. binv H. injection H as <- <- <-. split; [now apply Q_same|constructor].
  - apply qsp_both. intros s s' labs p' _ H. binv H. binv H. apply rd_ok in E0. binv H. injection H as <- <- <-. split.
    { right. exists o. split; [reflexivity|]. intros nm q0 Hq0.
      destruct (put_q_cases s (QAo o) _ _ nm q0 (put_q_ao s (set_ao s x1) o x0 _ x1 E0 E1 eq_refl eq_refl) Hq0) as [[-> Eq]|[Eq Hn]].
      - eexists. split; [exact Eq|]. cbn [inits]. rewrite Nat.eqb_refl. unfold fresh. cbn. auto.
      - exists q0. split; [exact Eq|]. destruct nm as [o'|]; cbn [inits]; [now rewrite Hn|reflexivity]. }
    apply (qsp_pseq (sma_register c o) (fun _ => User (UInit o) (Ret 0))); [|intros v; repeat constructor]. apply qsp_both. intros s1 s1' labs p' _ H. binv H. binv H. binv H. injection H as <- <- <-.
    split; [now apply Q_same|]. apply qsp_both. intros s2 s2' labs p' _ H. binv H. injection H as <- <- <-. split; [now apply Q_same|constructor].
  - apply qsp_both. intros s s' labs p' _ H. binv H. destruct x as [s1 l1]. injection H as <- <- <-. split; [|constructor]. left.
    assert (K : forall ps r s1 l1, fold_left (fun r pe => do (s, labs) <- r; do (s, l) <- post_sec c false s (fst pe) (snd pe); Ok (s, labs ++ l)) ps r = Ok (s1, l1) ->
      (forall s0 l0, r = Ok (s0, l0) -> F s l0 s0) -> F s l1 s1).
    { clear - Hasrt. intros ps. induction ps as [|pe ps IH]; intros r s2 l2 H Hr; cbn [fold_left] in H; [eauto|].
      eapply IH; [exact H|]. intros s0 l0 E. binv E. destruct x as [s3 l3]. binv E. destruct x as [s4 l4]. injection E as <- <-.
      eapply F_app; [eapply Hr; eauto|eapply F_post; eauto]. }
    eapply K; [exact E|]. intros s0 l0 H. injection H as <- <-. now apply F_same.
  - apply qsp_both. intros s s' labs p' _ H. binv H. binv H. binv H. injection H as <- <- <-. split; [now apply Q_same|].
    apply qsp_both. intros s2 s2' labs p' _ H. binv H. injection H as <- <- <-. split; [now apply Q_same|constructor].
Qed.
Lemma q_sched : qsp (sched_once c).
Proof.
  apply qsp_both. intros s s' labs p' _ H. destruct (rg_isReady (k_rg s)).
  - binv H. binv H. injection H as <- <- <-. split; [apply Q_same; [reflexivity|reflexivity|now destruct x0]|].
    destruct x0 as [o|]; [|apply qsp_both; discriminate]. apply qsp_both. intros s1 s1' labs p' _ H.
    binv H. apply rd_ok in E1. binv H. destruct x1 as [[q g] e]. binv H. binv H. injection H as <- <- <-.
    split; [|constructor; apply q_gc]. left. destruct e as [e|]; [|unfold rassert in E4; rewrite Hasrt in E4; discriminate].
    eapply (F_out s1 (QAo o) (ao_q x0) q _ e); [cbn [the_queue]; now rewrite E1|eapply get_figs; eauto|eapply put_q_ao; eauto].
  - injection H as <- <- <-. split; [now apply Q_same|]. repeat constructor.
Qed.
End P.

(** ** The queues and the log *)
Section Q.
Context (c : kcfg) (mem0 : @mem cell) (statics : list (N * N)) (prios : list N)
  (dqs : list (list (option N) * nat)) (pools : list (N * N * N)) (rs : list N).
Context (SO : sys_ok c mem0 statics prios dqs pools rs).
Notation reachable := (reachable c mem0 statics prios dqs pools).
Notation RI := (reach_inv c mem0 statics prios dqs pools rs SO).
Notation Hasrt := (so_asrt _ _ _ _ _ _ _ SO).

Lemma reach_G x : reachable x -> G (c_s x).
Proof. intros H d q Hq. exact (kq_dq _ _ _ _ _ _ _ _ (ki_q _ _ _ _ _ _ _ _ _ (ci_k _ _ _ _ _ _ _ _ (RI x H))) d q Hq). Qed.
Definition qsps (stk : list frame) : Prop := Forall (fun f => qsp (f_p f)) stk.
Lemma q_cases x ch x' : G (c_s x) -> qsps (c_stk x) -> cstep c statics x ch = Ok x' ->
  qsps (c_stk x') /\ exists labs m, c_log x' = c_log x ++ map EL labs ++ m /\ (forall y, In y m -> exists u, y = EU u) /\ QS (c_s x) labs (c_s x').
Proof.
  intros HG Hp H. assert (Hsame : forall y, c_s y = c_s x -> c_log y = c_log x ->
    exists labs m, c_log y = c_log x ++ map EL labs ++ m /\ (forall y, In y m -> exists u, y = EU u) /\ QS (c_s x) labs (c_s y)).
  { intros y E1 E2. exists [], []. rewrite E1, E2. cbn. rewrite app_nil_r. split; [reflexivity|]. split; [intros ? []|now apply Q_same]. }
  assert (Huser : forall p y, In y (user_of p) -> exists u, y = EU u).
  { intros [| |u k] y Hy; cbn in Hy; try tauto. destruct Hy as [<-|[]]. eauto. }
  destruct x as [s l stk log]. cbn [c_s c_stk c_log] in *. destruct ch as [|op|]; cbn [cstep c_stk c_s c_led c_log] in H.
  - destruct stk as [|[isr led p] stk]; [injection H as <-; auto|]. cbn [f_p f_led f_isr] in H. inversion Hp as [|? ? H1 H2]; subst. cbn [f_p] in H1.
    destruct p as [v|f|u k].
    + destruct stk as [|g stk]; injection H as <-; (split; [|now apply Hsame]); cbn [c_stk]; [|exact H2].
      constructor; [cbn [f_p]; apply q_sched, Hasrt|constructor].
    + destruct (f s) as [[[s' labs] p']|] eqn:Ef; [|discriminate].
      match type of H with (if ?b then _ else _) = _ => destruct b end; injection H as <-; [split; [exact Hp|now apply Hsame]|].
      inversion H1 as [| |f' HR HP]; subst. cbn [c_stk c_log c_s]. split; [constructor; [eapply HP; eauto|exact H2]|].
      exists labs, (user_of p'). split; [reflexivity|]. split; [apply Huser|eapply HR; eauto].
    + injection H as <-. cbn [c_stk c_log c_s]. inversion H1; subst. split; [now constructor|].
      exists [], (user_of k). split; [reflexivity|]. split; [apply Huser|now apply Q_same].
  - destruct stk as [|top stk]; [injection H as <-; auto|].
    destruct (f_p top) as [v|f|u k] eqn:Ep; try (injection H as <-; split; [exact Hp|now apply Hsame]).
    destruct (grab c statics s l _ (f_isr top) op) as [[mine l']|] eqn:Eg; injection H as <-; (split; [|now apply Hsame]); [|exact Hp].
    constructor; [cbn [f_p]; apply q_api, Hasrt|exact Hp].
  - injection H as <-. split; [|now apply Hsame]. constructor; [cbn [f_p]; repeat constructor|exact Hp].
Qed.

Lemma since_app nm l1 l2 : since_init nm (l1 ++ l2) = fold_left (fun l x => if inits nm x then [] else l ++ [x]) l2 (since_init nm l1).
Proof. unfold since_init. apply fold_left_app. Qed.
Lemma since_none nm l2 : forallb (fun x => negb (inits nm x)) l2 = true -> forall l, fold_left (fun l x => if inits nm x then [] else l ++ [x]) l2 l = l ++ l2.
Proof.
  induction l2 as [|x t IH]; intros H l; [now rewrite app_nil_r|]. cbn [forallb fold_left] in *. apply andb_true_iff in H. destruct H as [H1 H2].
  apply negb_true_iff in H1. rewrite H1, (IH H2), <- app_assoc. reflexivity.
Qed.
Lemma fstep_users n nm m r : (forall y, In y m -> exists u, y = EU u) -> fold_left (fstep n nm) m r = r.
Proof.
  revert r. induction m as [|y m IH]; intros r H; [reflexivity|]. cbn [fold_left]. destruct (H y (or_introl eq_refl)) as [u ->].
  replace (fstep n nm r (EU u)) with r by (destruct r as [[[[? ?] ?] ?]|], nm; reflexivity). apply IH. intros z Hz. apply H. now right.
Qed.
Definition qstat (x : conf) : Prop := forall nm q, the_queue (c_s x) nm = Some q ->
  nreads (q_info q) = 0%N /\ nfull (q_info q) = 0%N /\
  fold_left (fstep (q_nelems q) nm) (since_init nm (c_log x)) (Some (0, q_nelems q, 0%N, 0%N)) = Some (figs q).
Lemma boot_q ps : forall s s', boot c s ps = Ok s' -> k_ao s' = k_ao s /\ k_dq s' = k_dq s.
Proof.
  induction ps as [|[[a n] b] ps IH]; intros s s' H; cbn [boot] in H; [now injection H as <-|].
  binv H. destruct (IH _ _ H) as [A B]. rewrite A, B. clear - E. unfold fwk_registerEvtPool in E. binv E. binv E. destruct x1 as [s1 ep].
  binv E. binv E. injection E as <-. cbn [k_ao k_dq set_pools].
  match goal with H : evtPool_getPool _ _ _ _ _ = _ |- _ => rename H into Eg end. unfold evtPool_getPool in Eg.
  destruct (find_unused (k_ep s) 0); [|now injection Eg as <- _].
  apply bind_inv in Eg. destruct Eg as [[q m] Ei Eg]. binv Eg. now injection Eg as <- _.
Qed.
Lemma reach_qstat x : reachable x -> qsps (c_stk x) /\ qstat x.
Proof.
  revert x. apply (reach_ind c mem0 statics prios dqs pools (fun x => qsps (c_stk x) /\ qstat x)).
  - intros s Es. split; [repeat constructor|]. intros nm q Hq. cbn [conf0 c_log c_s since_init fold_left] in *.
    destruct (boot_q _ _ _ Es) as [A B].
    assert (Hf : exists st n a, q = queue_init st n a).
    { destruct nm as [o|d]; cbn [the_queue] in Hq; rewrite ?A, ?B in Hq; cbn [kst0 k_ao k_dq] in Hq; rewrite nth_error_map in Hq.
      - destruct (nth_error prios o); [|discriminate]. injection Hq as <-. cbn [ao_q]. eauto.
      - destruct (nth_error dqs d); [|discriminate]. injection Hq as <-. eauto. }
    destruct Hf as (st & n & a & ->). cbn. auto.
  - intros x ch x' H [IH1 IH2] E.
    destruct (q_cases x ch x' (reach_G x H) IH1 E) as (HP & labs & m & El & Hm & HS). split; [exact HP|].
    intros nm q' Hq'. rewrite El, since_app, fold_left_app.
    assert (Hum : forallb (fun x => negb (inits nm x)) m = true).
    { apply forallb_forall. intros y Hy. destruct (Hm y Hy) as [u ->]. now destruct nm. }
    rewrite (since_none nm m Hum), fold_left_app, fstep_users by exact Hm.
    assert (Hex : exists q, the_queue (c_s x) nm = Some q).
    { pose proof (reach_step _ _ _ _ _ _ _ _ _ H E) as H'.
      pose proof (ki_q _ _ _ _ _ _ _ _ _ (ci_k _ _ _ _ _ _ _ _ (RI x H))) as Q1. pose proof (ki_q _ _ _ _ _ _ _ _ _ (ci_k _ _ _ _ _ _ _ _ (RI x' H'))) as Q2.
      pose proof (kq_prios _ _ _ _ _ _ _ _ Q1) as P1. pose proof (kq_prios _ _ _ _ _ _ _ _ Q2) as P2. pose proof (kq_nd _ _ _ _ _ _ _ _ Q1) as N1. pose proof (kq_nd _ _ _ _ _ _ _ _ Q2) as N2.
      rewrite <- P2 in P1. apply (f_equal (@length _)) in P1. rewrite !map_length in P1.
      destruct nm as [o|d]; cbn [the_queue] in Hq' |- *.
      - destruct (nth_error (k_ao (c_s x)) o) as [a|] eqn:Ea; [cbn; eauto|]. apply nth_error_None in Ea.
        destruct (nth_error (k_ao (c_s x')) o) eqn:Eb; [|discriminate]. apply nth_some_lt in Eb. lia.
      - destruct (nth_error (k_dq (c_s x)) d) as [a|] eqn:Ea; [eauto|]. apply nth_error_None in Ea. apply nth_some_lt in Hq'. lia. }
    destruct Hex as [q Hq]. destruct (IH2 nm q Hq) as (Z1 & Z2 & Z3). destruct HS as [[HN HF]|(o & -> & HF)].
    + destruct (HF nm q Hq) as (q1 & Hq1 & K1 & K2 & K3 & K4). assert (q1 = q') by congruence. subst q1.
      rewrite since_none, fold_left_app, K1, Z3, K4; [repeat split; congruence|].
      rewrite forallb_forall in *. intros y Hy. apply in_map_iff in Hy. destruct Hy as (z & <- & Hz). specialize (HN z Hz). destruct z; try discriminate; now destruct nm.
    + destruct (HF nm q Hq) as (q1 & Hq1 & K). assert (q1 = q') by congruence. subst q1. cbn [map fold_left]. destruct (inits nm (EL (KInit o))) eqn:Ei.
      * destruct K as (K1 & K2 & K3). unfold figs. rewrite K1, K2, K3. cbn. auto.
      * subst q'. rewrite fold_left_app, Z3. split; [exact Z1|]. split; [exact Z2|]. cbn [fold_left]. unfold fstep, figs. now destruct nm.
Qed.

Lemma fstep_spec n nm l : forall k m p g, fold_left (fstep n nm) l (Some (0, n, 0%N, 0%N)) = Some (k, m, p, g) ->
  k + outs nm l = ins nm l /\ p = (N.of_nat (ins nm l) mod 65536)%N /\ g = (N.of_nat (outs nm l) mod 65536)%N /\
  (forall pre post, l = pre ++ post -> outs nm pre <= ins nm pre <= outs nm pre + n /\ m <= n - (ins nm pre - outs nm pre)) /\
  (exists pre post, l = pre ++ post /\ m = n - (ins nm pre - outs nm pre)).
Proof.
  induction l as [|x l IH] using rev_ind; intros k m p g H.
  - cbn in H. injection H as <- <- <- <-. split; [reflexivity|]. split; [reflexivity|]. split; [reflexivity|]. split.
    + intros pre post E. symmetry in E. apply app_eq_nil in E. destruct E as [-> ->]. cbn. lia.
    + exists [], []. split; [reflexivity|]. cbn. lia.
  - rewrite fold_left_app in H. cbn [fold_left] in H.
    destruct (fold_left (fstep n nm) l (Some (0, n, 0%N, 0%N))) as [[[[k0 m0] p0] g0]|] eqn:E0; [|discriminate].
    destruct (IH k0 m0 p0 g0 eq_refl) as (H1 & H2 & H3 & H4 & H5).
    pose proof (H4 l [] (eq_sym (app_nil_r l))) as [H6 H7].
    assert (Hx : k + outs nm (l ++ [x]) = ins nm (l ++ [x]) /\ k <= n /\ p = (N.of_nat (ins nm (l ++ [x])) mod 65536)%N /\
      g = (N.of_nat (outs nm (l ++ [x])) mod 65536)%N /\ m = Nat.min m0 (n - k)).
    { unfold ins, outs in *. rewrite !filter_app, !app_length. cbn [filter]. unfold fstep in H.
      assert (Hd : is_in nm x = true -> is_out nm x = false) by (destruct nm, x as [[]|]; cbn; congruence).
      destruct (is_in nm x).
      - rewrite (Hd eq_refl). destruct (Nat.ltb_spec k0 n); [|discriminate]. injection H as <- <- <- <-. cbn [length]. split; [lia|]. split; [lia|].
        split; [|split; [rewrite H3; f_equal; lia|lia]]. rewrite H2. unfold u16. rewrite N.add_mod_idemp_l by lia. f_equal. lia.
      - destruct (is_out nm x).
        + destruct k0 as [|k0]; [discriminate|]. injection H as <- <- <- <-. cbn [length]. split; [lia|]. split; [lia|].
          split; [rewrite H2; f_equal; lia|]. split; [|lia]. rewrite H3. unfold u16. rewrite N.add_mod_idemp_l by lia. f_equal. lia.
        + injection H as <- <- <- <-. cbn [length]. rewrite !Nat.add_0_r. repeat split; auto; lia. }
    destruct Hx as (X1 & X2 & X3 & X4 & X5). split; [exact X1|]. split; [exact X3|]. split; [exact X4|]. split.
    + intros pre post E. destruct post as [|y post] using rev_ind; [rewrite app_nil_r in E; subst pre; lia|]. clear IHpost.
      rewrite app_assoc in E. apply app_inj_tail in E. destruct E as [E ->]. specialize (H4 _ _ E). lia.
    + destruct (Nat.min_spec m0 (n - k)) as [[_ Em]|[_ Em]]; rewrite Em in X5.
      * destruct H5 as (pre & post & E & Hp). exists pre, (post ++ [x]). rewrite E, <- app_assoc. split; [reflexivity|congruence].
      * exists (l ++ [x]), []. rewrite app_nil_r. split; [reflexivity|lia].
Qed.

Lemma queue_figures x nm q : reachable x -> the_queue (c_s x) nm = Some q ->
  let l := since_init nm (c_log x) in let n := q_nelems q in
  length (waiting (c_s x) nm) + outs nm l = ins nm l /\
  (forall pre post, l = pre ++ post -> outs nm pre <= ins nm pre <= outs nm pre + n) /\
  (forall pre post, l = pre ++ post -> queue_get_lwm q <= n - (ins nm pre - outs nm pre)) /\
  (exists pre post, l = pre ++ post /\ queue_get_lwm q = n - (ins nm pre - outs nm pre)) /\
  nputs (queue_get_info q) = (N.of_nat (ins nm l) mod 65536)%N /\ ngets (queue_get_info q) = (N.of_nat (outs nm l) mod 65536)%N /\
  nreads (queue_get_info q) = 0%N /\ nfull (queue_get_info q) = 0%N.
Proof.
  intros H Hq l n. destruct (reach_qstat x H) as [_ HS]. destruct (HS nm q Hq) as (Z1 & Z2 & Z3).
  destruct (fstep_spec _ _ _ _ _ _ _ Z3) as (A & B & C & D & E). fold l n in A, B, C, D, E. unfold queue_get_lwm, queue_get_info.
  assert (Hw : length (waiting (c_s x) nm) = q_qty q).
  { destruct nm as [o|d]; cbn [the_queue waiting] in *; unfold ao_view, dq_view.
    - destruct (nth_error (k_ao (c_s x)) o); [|discriminate]. injection Hq as <-. apply q_view_length.
    - rewrite Hq. apply q_view_length. }
  rewrite Hw. split; [exact A|]. split; [intros pre post Ep; apply (D pre post Ep)|]. split; [intros pre post Ep; apply (D pre post Ep)|]. auto.
Qed.
End Q.
