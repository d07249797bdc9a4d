(** Proofs: state machines of objects that are terminated and activated again. *)
From Verif Require Import Base L_Base M_RdyGrp S_RdyGrp L_RdyGrp M_Queue S_Queue M_Sm S_SmWf S_SmRun M_MemPool S_MemPool L_MemPool M_Kernel S_Kernel
  L_KMem L_KQueue L_Kernel L_KRun L_KBoot L_KProps M_App S_App L_App S_AppTerm.
From Verif Require Import L_SmKeep L_SmSafe L_AppSm.
Local Open Scope N_scope.

Lemma story_app o w w' : story o (w ++ w') = story o w ++ story o w'.
Proof. unfold story. now rewrite map_app, concat_app. Qed.
Lemma lives_app ob l l' : forall k r, lives ob k r (l ++ l') = lives ob (k + length l) (lives ob k r l) l'.
Proof.
  induction l as [|h t IH]; intros k r; cbn [app length].
  - now rewrite Nat.add_0_r.
  - replace (k + S (length t))%nat with (S k + length t)%nat by lia. destruct h; apply IH.
Qed.
Lemma lives_sigs ob l : forall k r, lives ob k r (map Some l) = alone_from ob k r l.
Proof. induction l as [|g t IH]; intros k r; [reflexivity|]. cbn [map lives alone_from]. apply IH. Qed.
Lemma lives_alone ob l : lives ob 0 (Ok blank) (None :: map Some l) = alone ob l.
Proof. cbn [lives bind]. apply lives_sigs. Qed.

Lemma story_started o w : story o w = [] -> is_started o w = false.
Proof.
  induction w as [|x t IH]; [reflexivity|]. change (x :: t) with ([x] ++ t). rewrite story_app, started_app. intros H. apply app_eq_nil in H. destruct H as [H1 H2].
  rewrite (IH H2), orb_false_r. destruct x; try reflexivity. unfold story in H1. cbn in H1 |- *. rewrite app_nil_r in H1. destruct (Nat.eqb o o0); [discriminate|reflexivity].
Qed.
Lemma story_handled o w g : In (Some g) (story o w) -> In g (handled o w).
Proof.
  induction w as [|x t IH]; [auto|]. change (x :: t) with ([x] ++ t). rewrite story_app, handled_app. intros H. apply in_app_iff in H. apply in_app_iff.
  destruct H as [H|H]; [left|right; now apply IH]. destruct x; cbn in H |- *; try contradiction; destruct (Nat.eqb o o0); cbn in H |- *; try contradiction.
  - destruct H as [H|[]]. injection H as <-. now left.
  - destruct H as [H|[]]. discriminate.
Qed.

Section A.
Context (c : kcfg) (mem0 : @mem cell) (statics : list (N * N)) (prios : list N)
  (dqs : list (list (option N) * nat)) (pools : list (N * N * N)) (rs : list N) (obj : nat -> smobj).
Context (SO : sys_ok c mem0 statics prios dqs pools rs).
Notation reachable := (reachable c mem0 statics prios dqs pools).

Definition led_by (o : nat) (w : list obs) : Prop :=
  (story o w = [] \/ exists t, story o w = None :: t) /\ forall g, In (Some g) (story o w) -> g <> None.
Definition told (x : conf) (w : list obs) (ms : machines) : Prop :=
  forall o, ms o = (length (story o w), lives (obj o) 0 (Ok blank) (story o w)) /\
    (story o w = [] -> init_count o (c_log x) = 0%nat) /\ led_by o w.
Lemma story_labs s labs o : story o (concat (map (obs_of s) (map EL labs))) = [].
Proof. induction labs as [|x t IH]; [reflexivity|]. cbn [map concat]. rewrite story_app, IH. destruct x; reflexivity. Qed.
Lemma led_more o w h : led_by o w -> (story o w = [] -> h = None) -> (forall g, h = Some g -> g <> None) -> forall w', story o w' = story o w ++ [h] -> led_by o w'.
Proof.
  intros [[E|[t E]] G] H1 H2 w' E'; split.
  - rewrite E', E, (H1 E). right. exists []. reflexivity.
  - rewrite E'. intros g Hg. apply in_app_iff in Hg. destruct Hg as [Hg|[Hg|[]]]; [now apply G|now apply H2].
  - rewrite E', E. right. exists (t ++ [h]). reflexivity.
  - rewrite E'. intros g Hg. apply in_app_iff in Hg. destruct Hg as [Hg|[Hg|[]]]; [now apply G|now apply H2].
Qed.
Lemma told_step x ch x' w ms : reachable x -> cstep c statics x ch = Ok x' -> told x w ms ->
  told x' (w ++ news x x') (fold_left (deliver obj (c_s x')) (skipn (length (c_log x)) (c_log x')) ms).
Proof.
  intros H E I o0. pose proof (reach_step _ _ _ _ _ _ _ _ _ H E) as H'. unfold news.
  destruct (reach_cases _ _ _ _ _ _ _ SO x ch x' H E) as [(_ & El)|(top & stk & labs & p' & (A1 & A2 & A3) & _)].
  { rewrite El, skipn_all. cbn [map concat fold_left]. rewrite app_nil_r. apply I. }
  assert (El : c_log x' = c_log x ++ map EL labs ++ user_of p') by (rewrite A3; reflexivity).
  assert (Ei : init_count o0 (c_log x') = (init_count o0 (c_log x) + init_count o0 (user_of p'))%nat).
  { now rewrite El, !init_count_app, init_count_labs. }
  destruct (I o0) as (I1 & I2 & I3).
  assert (Es : forall w', story o0 (w ++ concat (map (obs_of (c_s x')) (map EL labs)) ++ w') = story o0 w ++ story o0 w').
  { intros w'. now rewrite !story_app, story_labs. }
  assert (Ek : skipn (length (c_log x)) (c_log x') = map EL labs ++ user_of p') by now rewrite El, skipn_app_len.
  rewrite Ek, fold_left_app, deliver_labs, map_app, concat_app.
  assert (Same : forall w', story o0 w' = [] -> init_count o0 (user_of p') = 0%nat -> fold_left (deliver obj (c_s x')) (user_of p') ms o0 = ms o0 ->
    fold_left (deliver obj (c_s x')) (user_of p') ms o0 =
      (length (story o0 (w ++ concat (map (obs_of (c_s x')) (map EL labs)) ++ w')),
       lives (obj o0) 0 (Ok blank) (story o0 (w ++ concat (map (obs_of (c_s x')) (map EL labs)) ++ w'))) /\
    (story o0 (w ++ concat (map (obs_of (c_s x')) (map EL labs)) ++ w') = [] -> init_count o0 (c_log x') = 0%nat) /\
    led_by o0 (w ++ concat (map (obs_of (c_s x')) (map EL labs)) ++ w')).
  { intros w' H1 H2 ->. unfold led_by. rewrite (Es w'), H1, app_nil_r, Ei, H2, Nat.add_0_r. exact (conj I1 (conj I2 I3)). }
  destruct p' as [r|f|u k]; cbn [user_of map concat] in *; try (now apply Same).
  destruct u as [o e| |o| |]; cbn [obs_of app] in *; try (now apply Same).
  - assert (Hi : In (EU (UDispatch o e)) (skipn (length (c_log x)) (c_log x'))).
    { rewrite El, skipn_app_len. apply in_app_iff. right. now left. }
    destruct (disp_front _ _ _ _ _ _ _ SO _ _ _ _ _ H E Hi) as (t & Hv & k0 & _ & Es0).
    destruct (live_hdr _ _ _ _ _ _ _ SO x' e H') as (sig & n & p & Eh & Eg).
    { unfold holders, led_all. rewrite Es0. cbn [map concat f_led fold_left led_step app]. unfold cnt.
      rewrite count_occ_cons_eq by reflexivity. lia. }
    rewrite Eg. destruct (Nat.eqb_spec o0 o) as [->|Hne].
    + assert (Ew : story o [Handled o (Some sig)] = [Some (Some sig)]) by (unfold story; cbn; now rewrite Nat.eqb_refl).
      assert (Hne : story o w <> []).
      { intros E0. apply I2 in E0. pose proof (init_reg _ _ _ _ _ _ _ SO x H o) as Hc.
        rewrite (view_reg _ _ _ _ _ _ _ SO x o H) in Hc by (rewrite Hv; discriminate). lia. }
      rewrite Es, Ew. split; [|split].
      * cbn [fold_left deliver]. unfold fupd. rewrite Nat.eqb_refl. unfold sma_dispatch. rewrite I1. cbn [fst snd].
        rewrite Eh, app_length, lives_app, Nat.add_0_l. cbn [length bind lives]. rewrite Nat.add_1_r. reflexivity.
      * intros E0. apply app_eq_nil in E0. destruct E0. discriminate.
      * eapply led_more; [exact I3|intros E0; now destruct Hne| |rewrite Es, Ew; reflexivity]. intros g Hg. injection Hg as <-. discriminate.
    + apply Same; [unfold story; cbn; now rewrite (proj2 (Nat.eqb_neq o0 o) Hne)|reflexivity|].
      cbn [fold_left deliver]. unfold fupd. destruct (Nat.eqb_spec o o0); [congruence|]. destruct (Nat.eqb_spec o0 o); [congruence|reflexivity].
  - destruct (Nat.eqb_spec o0 o) as [->|Hne].
    + assert (Ew : story o [Started o] = [None]) by (unfold story; cbn; now rewrite Nat.eqb_refl).
      rewrite Es, Ew. split; [|split].
      * cbn [fold_left deliver]. unfold fupd. rewrite Nat.eqb_refl. unfold sma_sm_init. rewrite I1. cbn [fst snd].
        rewrite app_length, lives_app, Nat.add_0_l. cbn [length bind lives]. rewrite Nat.add_1_r. reflexivity.
      * intros E0. apply app_eq_nil in E0. destruct E0. discriminate.
      * eapply led_more; [exact I3|reflexivity| |rewrite Es, Ew; reflexivity]. discriminate.
    + apply Same; [unfold story; cbn; now rewrite (proj2 (Nat.eqb_neq o0 o) Hne)| |].
      * unfold init_count. cbn. now rewrite (proj2 (Nat.eqb_neq o0 o) Hne).
      * cbn [fold_left deliver]. unfold fupd. destruct (Nat.eqb_spec o o0); [congruence|]. destruct (Nat.eqb_spec o0 o); [congruence|reflexivity].
Qed.
Lemma told_run chs : forall x w0 ms y w, reachable x -> told x w0 ms -> orun c statics x chs = Ok (y, w) ->
  exists ms', arun c statics obj x ms chs = Ok (y, ms') /\ told y (w0 ++ w) ms'.
Proof.
  induction chs as [|ch chs IH]; intros x w0 ms y w H HI E; cbn [orun arun] in *.
  - injection E as <- <-. exists ms. rewrite app_nil_r. auto.
  - apply bind_inv in E. destruct E as [x1 E1 E]. rewrite E1. cbn [bind].
    apply bind_inv in E. destruct E as [[y1 w1] E2 E]. injection E as <- <-. rewrite app_assoc.
    eapply IH; [eapply reach_step; eauto| |exact E2]. now apply told_step with (ch := ch).
Qed.
Lemma told_start s : start c mem0 prios dqs pools = Ok s -> told (conf0 s) [] machines0.
Proof.
  intros E o. split; [reflexivity|]. split; [reflexivity|]. split; [left; reflexivity|intros g []].
Qed.
End A.

(** ** A life as calls of the functions of the state machine *)
Section S.
Context (ob : smobj) (rank : nat -> nat) (home : nat -> option nat).
Context (W : wf_machine (ob_c ob) (ob_M ob) rank home = true) (Hi : wf_initial (ob_c ob) (ob_M ob) home (ob_ist ob) = true).
Context (Ha : forall k, arrays_ok (ob_c ob) (ob_ars ob k)).
Notation srun := (sm_run (ob_c ob) (ob_M ob) (ob_grd ob) (ob_fuel ob) (ob_ist ob) (ob_iact ob)).

Lemma init_active d ars d' e : arrays_ok (ob_c ob) ars -> machine_ok (ob_c ob) (ob_M ob) home d ->
  sm_init (ob_c ob) (ob_M ob) (ob_grd ob) (ob_fuel ob) (ob_ist ob) (ob_iact ob) d ars = Ok (d', e) -> machine_ok (ob_c ob) (ob_M ob) home d'.
Proof.
  intros Hars Hm H. pose proof (machine_ready _ _ _ _ Hm) as Hr.
  destruct (dispatch_safe _ _ _ _ W (ob_grd ob) (ob_fuel ob) (ob_ist ob) (ob_iact ob) d (evCreation (ob_c ob)) ars Hi Hars Hr (fun _ => eq_refl)) as [_ K].
  destruct (K _ _ H) as [(r & H1 & H2) R]. cbn [ev_sig evCreation] in H1. unfold sig_creation in H1. rewrite N.eqb_refl in H1.
  destruct (initial_kind _ _ _ _ Hi) as [Hk Hh]. destruct Hm as (Hram & s & Es & _). destruct r as [d1|d1|d1 e1].
  - eapply (finish_wf _ _ _ _ _ W); [exact H2|]. exact (create_wf _ _ _ _ _ W _ _ _ _ _ H1 Hram Hk Hh).
  - eapply (finish_wf _ _ _ _ _ W); [exact H2|]. exact (create_wf _ _ _ _ _ W _ _ _ _ _ H1 Hram Hk Hh).
  - inversion H2; subst. destruct (create_error _ _ _ _ _ W _ _ _ _ _ _ H1 Hram Hk Hh) as (_ & K2 & _).
    eapply ready_machine; [exact R|]. rewrite K2; exact Es.
Qed.
Lemma lives_fault k f l : lives ob k (Fault f) l = Fault f.
Proof. revert k. induction l as [|[g|] t IH]; intros k; cbn [lives bind]; [reflexivity|apply IH|apply IH]. Qed.
Lemma lives_run l : forall k d, machine_ok (ob_c ob) (ob_M ob) home d -> ~ In (Some (Some (sm_any (ob_c ob) - 2))) l ->
  (forall g, In (Some g) l -> g <> None) ->
  lives ob k (Ok d) l = srun d (life_calls ob k l) /\
  forall d', lives ob k (Ok d) l = Ok d' -> machine_ok (ob_c ob) (ob_M ob) home d'.
Proof.
  induction l as [|h t IH]; intros k d Hm Hn Hs; cbn [lives life_calls sm_run].
  - split; [reflexivity|]. intros d' E. now injection E as <-.
  - destruct h as [g|].
    + destruct g as [v|]; [|exfalso; now apply (Hs None); [left|]]. cbn [sm_run sm_do]. pose proof Hm as (_ & s & Es & _). rewrite Es.
      cbn [bind]. destruct (dispatch _ _ _ _ _ _ d (mkEv v (2 + v)) (ob_ars ob k)) as [[d1 e1]|f] eqn:Ed; cbn [bind].
      * apply IH; [|intros Hx; apply Hn; now right|intros g Hg; apply Hs; now right].
        eapply (dispatch_active ob rank home W Hi); [apply Ha|exact Hm| |exact Ed]. cbn [ev_sig]. intros ->. apply Hn. now left.
      * rewrite lives_fault. split; [reflexivity|discriminate].
    + cbn [sm_run sm_do bind]. destruct (sm_init _ _ _ _ _ _ d (ob_ars ob k)) as [[d1 e1]|f] eqn:Ed; cbn [bind].
      * apply IH; [|intros Hx; apply Hn; now right|intros g Hg; apply Hs; now right]. eapply init_active; [apply Ha|exact Hm|exact Ed].
      * rewrite lives_fault. split; [reflexivity|discriminate].
Qed.
Lemma lives_calls l d0 e0 : sm_init (ob_c ob) (ob_M ob) (ob_grd ob) (ob_fuel ob) (ob_ist ob) (ob_iact ob) blank (ob_ars ob 0) = Ok (d0, e0) ->
  d_st d0 <> None -> ~ In (Some (Some (sm_any (ob_c ob) - 2))) l -> (forall g, In (Some g) l -> g <> None) ->
  lives ob 0 (Ok blank) (None :: l) = srun blank (life_calls ob 0 (None :: l)) /\
  forall d, lives ob 0 (Ok blank) (None :: l) = Ok d -> machine_ok (ob_c ob) (ob_M ob) home d.
Proof.
  intros E Hs Hn Hg. cbn [lives life_calls sm_run sm_do bind]. rewrite E. cbn [bind]. apply lives_run; auto.
  destruct (d_st d0) as [s|] eqn:Es; [|congruence].
  destruct (dispatch_safe _ _ _ _ W (ob_grd ob) (ob_fuel ob) (ob_ist ob) (ob_iact ob) blank (evCreation (ob_c ob)) (ob_ars ob 0) Hi (Ha 0%nat)
    (blank_ready _ _ _) (fun _ => eq_refl)) as [_ K].
  destruct (K _ _ E) as [_ R]. eapply ready_machine; eauto.
Qed.
Lemma life_ok l : forall k, Forall (smop_ok (ob_c ob)) (life_calls ob k l).
Proof. induction l as [|[g|] t IH]; intros k; cbn [life_calls]; constructor; try apply Ha; apply IH. Qed.
End S.
