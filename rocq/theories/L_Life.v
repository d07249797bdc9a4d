(** Proofs: life of the thread of an active object. *)
From Verif Require Import Base L_Base M_Life S_Life.

Lemma live_app p cap l1 : forall s l2, live p cap s (l1 ++ l2) =
  match live p cap s l1 with
  | Some (Ok s') => live p cap s' l2
  | Some (Fault f) => match l2 with [] => Some (Fault f) | _ => None end
  | None => None
  end.
Proof.
  induction l1 as [|x l1 IH]; intros s l2; [reflexivity|]. cbn [app live]. destruct (lstep p cap s x) as [[s'|f]|]; auto.
  destruct l1; [now destruct l2|reflexivity].
Qed.
Lemma live_one p cap s x : live p cap s [x] = lstep p cap s x.
Proof. cbn [live]. destruct (lstep p cap s x) as [[?|?]|]; reflexivity. Qed.
Lemma posted_app l1 l2 : posted (l1 ++ l2) = posted l1 ++ posted l2.
Proof. induction l1 as [|x l1 IH]; [reflexivity|]. destruct x; cbn; now rewrite IH. Qed.

(** ** Before any termination *)
Definition phase (p : port) (s : life) : Prop :=
  match l_act s with
  | A0 => l_pc s = PNone /\ l_q s = None /\ l_flag s = false
  | A1 => l_pc s = PNone /\ l_q s <> None /\ l_flag s = false /\ l_reg s = true
  | A2 => l_pc s = start_pc p /\ l_q s <> None /\ l_flag s = false /\ l_reg s = true
  | A3 => (match l_pc s with PTest | PGet | PDisp _ | PGc _ => True | _ => False end) /\ l_q s <> None /\ l_flag s = true /\ l_reg s = true
  end.
Definition mid (s : life) : bool := match l_act s with A2 => true | _ => false end.
Lemma serve p cap : forall l s pre s', live p cap s l = Some (Ok s') -> phase p s -> calm (mid s) l -> ~ In Terminate l ->
  l_out s ++ in_hand s ++ queued s = pre ->
  phase p s' /\ l_out s' ++ in_hand s' ++ queued s' = pre ++ posted l.
Proof.
  induction l as [|x l IH]; intros s pre s' E Hp Hc Ht Ho; cbn [live] in E.
  - injection E as <-. cbn. now rewrite app_nil_r.
  - destruct (lstep p cap s x) as [[s1|f]|] eqn:Es; [|now destruct l|discriminate].
    assert (Ht' : ~ In Terminate l) by (intros H; apply Ht; now right).
    assert (G : phase p s1 /\ calm (mid s1) l /\ l_out s1 ++ in_hand s1 ++ queued s1 = pre ++ posted [x]).
    { clear IH E Ht'. destruct s as [q rg fl a pc ou]. unfold lstep, phase, mid, in_hand, queued in *. cbn [l_act l_q l_reg l_flag l_pc l_out] in *.
      destruct x; cbn [calm posted] in *.
      - destruct a; try discriminate. injection Es as <-. cbn in *. destruct Hp as (-> & -> & ->). rewrite ?app_nil_r in *. intuition (auto; try discriminate).
      - destruct a; try discriminate. injection Es as <-. cbn in *. destruct Hp as (-> & Hq & -> & ->). rewrite ?app_nil_r in *.
        unfold start_pc. destruct (is_win32 p); intuition (auto; try discriminate).
      - destruct a; try discriminate. injection Es as <-. cbn in *. destruct Hp as (-> & Hq & -> & ->). rewrite ?app_nil_r in *.
        unfold start_pc in *. destruct (is_win32 p); intuition (auto; try discriminate).
      - destruct Hc as [Hb Hc]. unfold thread_step in Es. cbn [l_act l_q l_reg l_flag l_pc l_out] in Es.
        destruct a; [destruct Hp as (-> & _)|destruct Hp as (-> & _)| |]; try discriminate.
        destruct Hp as (Hpc & Hq & -> & ->). rewrite app_nil_r. destruct pc; try tauto.
        + injection Es as <-. cbn. intuition.
        + destruct q as [[|e q]|]; try discriminate; try congruence. injection Es as <-. cbn. cbn in Ho. intuition (auto; try discriminate).
        + injection Es as <-. cbn. cbn in Ho. rewrite <- app_assoc. intuition.
        + injection Es as <-. cbn. intuition.
      - destruct a; try discriminate; destruct q as [q|]; try discriminate;
        (destruct (length q <? cap)%nat; [|discriminate]); injection Es as <-; cbn in *; rewrite <- Ho, <- !app_assoc;
        intuition (auto; discriminate).
      - exfalso. apply Ht. now left. }
    destruct G as (G1 & G2 & G3). destruct (IH s1 _ s' E G1 G2 Ht' G3) as [F1 F2]. split; [exact F1|]. rewrite F2, <- app_assoc.
    f_equal. change (x :: l) with ([x] ++ l). now rewrite posted_app.
Qed.
Lemma served p cap l s : live p cap life0 l = Some (Ok s) -> calm false l -> ~ In Terminate l ->
  phase p s /\ l_out s ++ in_hand s ++ queued s = posted l.
Proof.
  intros E Hc Ht. destruct (serve p cap l life0 [] s E) as [F1 F2]; auto. cbn. auto.
Qed.
(** Who has been created or set, from the labels. *)
Lemma act_mono p cap : forall l s s', live p cap s l = Some (Ok s') ->
  (l_act s = A3 -> l_act s' = A3) /\ (l_act s = A2 -> l_act s' = A2 \/ l_act s' = A3) /\
  (In ASet l -> l_act s' = A3) /\ (In ACreate l -> l_act s' = A2 \/ l_act s' = A3).
Proof.
  induction l as [|x l IH]; intros s s' E; cbn [live] in E.
  - injection E as <-. cbn. tauto.
  - destruct (lstep p cap s x) as [[s1|f]|] eqn:Es; [|now destruct l|discriminate]. destruct (IH s1 s' E) as (I1 & I2 & I3 & I4).
    assert (G : (l_act s = A3 -> l_act s1 = A3) /\ (l_act s = A2 -> l_act s1 = A2 \/ l_act s1 = A3) /\ (x = ASet -> l_act s1 = A3) /\ (x = ACreate -> l_act s1 = A2)).
    { destruct s as [q rg fl a pc ou]. unfold lstep, thread_step in Es. cbn [l_act l_q l_reg l_flag l_pc l_out] in *.
      destruct x; try (destruct a; try discriminate; try (destruct q; try discriminate); try (destruct (_ <? _)%nat; try discriminate);
        try (destruct (is_win32 p); try discriminate); injection Es as <-; cbn; intuition congruence).
      destruct pc; try discriminate; try (injection Es as <-; cbn; intuition congruence).
      destruct q as [[|? ?]|]; try discriminate. injection Es as <-. cbn. intuition congruence. }
    destruct G as (G1 & G2 & G3 & G4). repeat split.
    + auto.
    + intros H. destruct (G2 H) as [H1 | H1]; auto.
    + intros [H | H]; auto.
    + intros [H | H]; auto.
Qed.
(** The thread alone. *)
Lemma drain p cap : forall n s, (length (queued s) = n)%nat -> phase p s -> l_act s = A3 ->
  exists l s', only_thread l /\ live p cap s l = Some (Ok s') /\ queued s' = [] /\ l_pc s' = PGet /\ phase p s' /\ l_act s' = A3 /\
    l_out s' = l_out s ++ in_hand s ++ queued s.
Proof.
  assert (turn : forall s, phase p s -> l_act s = A3 ->
    exists l s', only_thread l /\ live p cap s l = Some (Ok s') /\ l_pc s' = PGet /\ queued s' = queued s /\ phase p s' /\ l_act s' = A3 /\ l_out s' = l_out s ++ in_hand s).
  { intros s Hp Ha. unfold phase in Hp. rewrite Ha in Hp. destruct s as [q rg fl a pc ou]. cbn in *. destruct Hp as (Hpc & Hq & -> & ->). subst a.
    destruct pc; try tauto.
    - exists [Thread]. eexists. split; [repeat constructor|]. split; [reflexivity|]. cbn. rewrite app_nil_r. unfold phase. cbn. auto 10.
    - exists []. eexists. split; [constructor|]. split; [reflexivity|]. cbn. rewrite app_nil_r. unfold phase. cbn. auto 10.
    - exists [Thread; Thread; Thread]. eexists. split; [repeat constructor|]. split; [reflexivity|]. unfold phase. cbn. auto 10.
    - exists [Thread; Thread]. eexists. split; [repeat constructor|]. split; [reflexivity|]. cbn. rewrite app_nil_r. unfold phase. cbn. auto 10. }
  induction n as [|n IH]; intros s Hn Hp Ha; destruct (turn s Hp Ha) as (l & s1 & H1 & H2 & H3 & H4 & H5 & H6 & H7).
  - exists l, s1. apply length_zero_iff_nil in Hn. rewrite Hn, app_nil_r. rewrite H4. auto 10.
  - destruct s1 as [q rg fl a pc ou]. unfold queued in H4 at 1. cbn in H3, H4, H6, H7. subst pc a.
    destruct q as [[|e q]|]; try (rewrite <- H4 in Hn; discriminate).
    set (s2 := mkLife (Some q) rg fl A3 (PDisp e) ou).
    assert (Hp2 : phase p s2). { unfold phase in *. cbn in *. intuition (auto; try discriminate). }
    destruct (IH s2) as (l2 & s3 & F1 & F2 & F3 & F4 & F5 & F6 & F7); auto.
    { cbn. rewrite <- H4 in Hn. cbn in Hn. lia. }
    exists (l ++ Thread :: l2), s3. split; [apply Forall_app; split; [exact H1|constructor; auto]|]. split.
    + rewrite live_app, H2. cbn [live lstep thread_step l_pc l_q]. exact F2.
    + repeat split; auto. rewrite F7. cbn. rewrite H7, <- H4, <- !app_assoc. reflexivity.
Qed.
Lemma drained p cap l s : live p cap life0 l = Some (Ok s) -> calm false l -> ~ In Terminate l -> In ASet l ->
  exists l' s', only_thread l' /\ live p cap s l' = Some (Ok s') /\ l_out s' = posted l /\ queued s' = [] /\
    l_reg s' = true /\ lstep p cap s' Thread = None.
Proof.
  intros E Hc Ht Ha. destruct (served p cap l s E Hc Ht) as [Hp Ho]. destruct (act_mono p cap l _ _ E) as (_ & _ & Hs & _). specialize (Hs Ha).
  destruct (drain p cap _ s eq_refl Hp Hs) as (l' & s' & F1 & F2 & F3 & F4 & F5 & F6 & F7). exists l', s'. repeat split; auto.
  - now rewrite F7.
  - unfold phase in F5. rewrite F6 in F5. tauto.
  - unfold phase in F5. rewrite F6 in F5. unfold queued in F3. cbn. unfold thread_step. rewrite F4. destruct (l_q s') as [[|? ?]|]; [reflexivity|discriminate|tauto].
Qed.
Lemma no_fault p cap l f : live p cap life0 l = Some (Fault f) -> calm false l -> ~ In Terminate l ->
  exists l' e s, l = l' ++ [Post e] /\ live p cap life0 l' = Some (Ok s) /\ (cap <= length (queued s))%nat /\ f = FAssert (put_line p).
Proof.
  destruct l as [|x l _] using rev_ind; [discriminate|]. rewrite live_app. intros E Hc Ht.
  destruct (live p cap life0 l) as [[s|g]|] eqn:El; try discriminate. rewrite live_one in E.
  assert (Hc' : calm false l). { clear -Hc. revert Hc. generalize false. induction l as [|y l IH]; intros b; [easy|]. destruct y; cbn; try apply IH. intros [? ?]. split; auto. }
  assert (Ht' : ~ In Terminate l) by (intros H; apply Ht; apply in_or_app; now left).
  destruct (served p cap l s El Hc' Ht') as [Hp _]. exists l.
  destruct s as [q rg fl a pc ou]. unfold lstep, thread_step, phase, start_pc in *. cbn [l_act l_q l_reg l_flag l_pc l_out] in *. destruct x.
  - destruct a; discriminate.
  - destruct a; discriminate.
  - destruct a; discriminate.
  - exfalso. destruct pc; try discriminate. destruct q as [[|? ?]|]; try discriminate. destruct a; intuition (try discriminate; congruence).
  - exists e. eexists. split; [reflexivity|]. split; [exact El|]. cbn. destruct a; try discriminate; destruct q as [q|];
    try (intuition congruence); destruct (Nat.ltb_spec (length q) cap); try discriminate; injection E as <-; split; auto.
  - exfalso. apply Ht. apply in_or_app. right. now left.
Qed.

(** ** After a termination *)
Definition late (s : life) : nat := match l_pc s with PGet | PDisp _ => 1 | _ => 0 end.
Lemma ending_step p cap x s s1 : lstep p cap s x = Some (Ok s1) -> l_act s = A3 -> l_flag s = false ->
  l_act s1 = A3 /\ l_flag s1 = false /\ (length (l_out s1) + late s1 <= length (l_out s) + late s)%nat /\
  (l_pc s <> PGet -> l_pc s1 <> PGet /\ l_out s1 ++ in_hand s1 = l_out s ++ in_hand s).
Proof.
  destruct s as [q rg fl a pc ou]. cbn [l_act l_flag]. intros E -> ->. unfold lstep, thread_step, late, in_hand in *.
  cbn [l_act l_q l_reg l_flag l_pc l_out] in *. destruct x; try discriminate.
  - destruct pc; try discriminate.
    + injection E as <-. cbn. intuition (try lia; try discriminate).
    + destruct q as [[|? ?]|]; try discriminate. injection E as <-. cbn. intuition (try lia; try discriminate; congruence).
    + injection E as <-. cbn. rewrite app_length, app_nil_r. cbn. intuition (try lia; try discriminate).
    + injection E as <-. cbn. intuition (try lia; try discriminate).
    + injection E as <-. destruct (is_win32 p); cbn; intuition (try lia; try discriminate).
    + injection E as <-. cbn. intuition (try lia; try discriminate).
  - destruct q as [q|]; try discriminate. destruct (_ <? _)%nat; try discriminate. injection E as <-. cbn. intuition (try lia; try congruence).
  - destruct (is_win32 p); [|destruct q; try discriminate]; injection E as <-; cbn; intuition (try lia; try congruence).
Qed.
Lemma ending p cap : forall l s s', live p cap s l = Some (Ok s') -> l_act s = A3 -> l_flag s = false ->
  (length (l_out s') + late s' <= length (l_out s) + late s)%nat /\
  (l_pc s <> PGet -> l_pc s' <> PGet /\ l_out s' ++ in_hand s' = l_out s ++ in_hand s).
Proof.
  induction l as [|x l IH]; intros s s' E Ha Hf; cbn [live] in E.
  - injection E as <-. auto.
  - destruct (lstep p cap s x) as [[s1|f]|] eqn:Es; [|now destruct l|discriminate].
    destruct (ending_step p cap x s s1 Es Ha Hf) as (G1 & G2 & G3 & G4). destruct (IH s1 s' E G1 G2) as (F1 & F2). split; [lia|].
    intros H. destruct (G4 H) as [G5 G6]. destruct (F2 G5) as [F3 F4]. split; [exact F3|]. congruence.
Qed.
Lemma term_step p cap s s1 : lstep p cap s Terminate = Some (Ok s1) ->
  l_act s1 = l_act s /\ l_flag s1 = false /\ l_pc s1 = l_pc s /\ l_out s1 = l_out s /\ l_reg s1 = l_reg s /\ (p = Win32 -> l_q s1 = l_q s).
Proof.
  destruct s as [q rg fl a pc ou]. cbn. destruct a; try discriminate; unfold is_win32; destruct p; try (destruct q; try discriminate);
  intros E; injection E as <-; cbn; repeat split; auto; discriminate.
Qed.
Lemma not_get_turn s : in_turn s -> l_pc s <> PGet.
Proof. unfold in_turn. destruct (l_pc s); easy. Qed.
Lemma own_terminate p cap l s l' s' : live p cap life0 l = Some (Ok s) -> In ASet l -> in_turn s ->
  live p cap s (Terminate :: l') = Some (Ok s') -> l_out s' ++ in_hand s' = l_out s ++ in_hand s.
Proof.
  intros E Ha Ht E'. cbn [live] in E'. destruct (lstep p cap s Terminate) as [[s1|f]|] eqn:Es; [|now destruct l'|discriminate].
  destruct (act_mono p cap l _ _ E) as (_ & _ & Hs & _). specialize (Hs Ha).
  destruct (term_step p cap s s1 Es) as (H1 & H2 & H3 & H4 & _). rewrite Hs in H1. destruct (ending p cap l' s1 s' E' H1 H2) as [_ F].
  destruct F as [_ F]; [rewrite H3; now apply not_get_turn|]. rewrite F. unfold in_hand. now rewrite H3, H4.
Qed.
Lemma run_out p cap s : l_flag s = false -> in_turn s ->
  exists l' s', only_thread l' /\ (length l' <= 5)%nat /\ live p cap s l' = Some (Ok s') /\ l_pc s' = PEnd /\ l_reg s' = false /\ l_out s' = l_out s ++ in_hand s.
Proof.
  destruct s as [q rg fl a pc ou]. cbn [l_flag]. intros -> Ht. unfold in_turn in Ht. cbn in Ht. unfold in_hand. cbn [l_pc l_out].
  destruct p; destruct pc; try tauto.
  1: exists [Thread; Thread; Thread]. 2: exists [Thread; Thread; Thread; Thread; Thread]. 3: exists [Thread; Thread; Thread; Thread].
  4: exists [Thread; Thread]. 5: exists [Thread; Thread; Thread; Thread]. 6: exists [Thread; Thread; Thread].
  7: exists [Thread; Thread]. 8: exists [Thread; Thread; Thread; Thread]. 9: exists [Thread; Thread; Thread].
  all: eexists; (split; [repeat constructor|]); (split; [cbn; lia|]); (split; [reflexivity|]); cbn; rewrite ?app_nil_r; auto.
Qed.
Lemma own_ends p cap l s : live p cap life0 l = Some (Ok s) -> calm false l -> ~ In Terminate l -> In ASet l -> in_turn s ->
  exists l' s', only_thread l' /\ live p cap s (Terminate :: l') = Some (Ok s') /\ l_pc s' = PEnd /\ l_reg s' = false /\ l_out s' = l_out s ++ in_hand s.
Proof.
  intros E Hc Ht Ha Hi. destruct (served p cap l s E Hc Ht) as [Hp _]. destruct (act_mono p cap l _ _ E) as (_ & _ & Hs & _). specialize (Hs Ha).
  unfold phase in Hp. rewrite Hs in Hp. destruct Hp as (_ & Hq & _).
  assert (G : exists s1, lstep p cap s Terminate = Some (Ok s1)).
  { unfold lstep. rewrite Hs. destruct (is_win32 p); [eauto|]. destruct (l_q s); [eauto|congruence]. }
  destruct G as [s1 Es]. destruct (term_step p cap s s1 Es) as (_ & H2 & H3 & H4 & _).
  destruct (run_out p cap s1 H2) as (l' & s' & F1 & _ & F2 & F3 & F4 & F5). { unfold in_turn in *. now rewrite H3. }
  exists l', s'. split; [exact F1|]. split; [cbn [live]; rewrite Es; exact F2|]. repeat split; auto. rewrite F5. unfold in_hand. now rewrite H3, H4.
Qed.
Lemma one_more p cap l s l' s' : live p cap life0 l = Some (Ok s) -> In ASet l -> live p cap s (Terminate :: l') = Some (Ok s') ->
  (length (l_out s') <= length (l_out s) + 1)%nat.
Proof.
  intros E Ha E'. cbn [live] in E'. destruct (lstep p cap s Terminate) as [[s1|f]|] eqn:Es; [|now destruct l'|discriminate].
  destruct (act_mono p cap l _ _ E) as (_ & _ & Hs & _). specialize (Hs Ha).
  destruct (term_step p cap s s1 Es) as (H1 & H2 & H3 & H4 & _). rewrite Hs in H1. destruct (ending p cap l' s1 s' E' H1 H2) as [F _].
  rewrite H4 in F. assert (late s1 <= 1)%nat by (unfold late; destruct (l_pc s1); lia). lia.
Qed.
(** In Win32 one more event is enough to end the thread, wherever it was. *)
Lemma next_ends cap l s e : live Win32 cap life0 l = Some (Ok s) -> calm false l -> ~ In Terminate l -> In ASet l -> (length (queued s) < cap)%nat ->
  exists l' s', only_thread l' /\ live Win32 cap s (Terminate :: Post e :: l') = Some (Ok s') /\ l_pc s' = PEnd /\ l_reg s' = false.
Proof.
  intros E Hc Ht Ha Hq. destruct (served Win32 cap l s E Hc Ht) as [Hp _]. destruct (act_mono Win32 cap l _ _ E) as (_ & _ & Hs & _). specialize (Hs Ha).
  unfold phase in Hp. rewrite Hs in Hp. destruct s as [q rg fl a pc ou]. cbn in Hs, Hp, Hq. subst a. destruct Hp as (Hpc & Hn & -> & ->).
  destruct q as [q|]; [|congruence]. cbn [live lstep l_act is_win32 l_q]. unfold queued in Hq; cbn in Hq.
  apply Nat.ltb_lt in Hq. rewrite Hq. clear E Hc Ht Ha Hn.
  assert (G : forall s, l_flag s = false -> in_turn s -> exists l' s', only_thread l' /\ live Win32 cap s l' = Some (Ok s') /\ l_pc s' = PEnd /\ l_reg s' = false).
  { intros s H1 H2. destruct (run_out Win32 cap s H1 H2) as (l' & s' & F1 & _ & F2 & F3 & F4 & _). eauto 10. }
  destruct pc; try tauto; try (apply G; [reflexivity|exact I]).
  destruct (G (mkLife (Some (tl (q ++ [e]))) true false A3 (PDisp (hd e (q ++ [e]))) ou)) as (l' & s' & F1 & F2 & F3); [reflexivity|exact I|].
  exists (Thread :: l'), s'. split; [constructor; auto|]. split; [|exact F3]. cbn [live lstep thread_step l_pc l_q]. now destruct q.
Qed.
(** Asleep in Win32, the thread stays so until a post. *)
Lemma asleep cap : forall l s s', live Win32 cap s l = Some (Ok s') -> l_act s = A3 -> l_pc s = PGet -> l_q s = Some [] -> posted l = [] ->
  l_pc s' = PGet /\ l_reg s' = l_reg s /\ l_out s' = l_out s.
Proof.
  induction l as [|x l IH]; intros s s' E Ha Hp Hq Hn; cbn [live] in E.
  - injection E as <-. auto.
  - destruct (lstep Win32 cap s x) as [[s1|f]|] eqn:Es; [|now destruct l|discriminate].
    destruct s as [q rg fl a pc ou]. cbn in Ha, Hp, Hq. subst. unfold lstep, thread_step in Es. cbn in Es. destruct x; try discriminate.
    injection Es as <-. apply (IH _ s') in E; auto.
Qed.

(** The queue never holds more than it was made for. *)
Lemma bounded p cap : forall l s s', live p cap s l = Some (Ok s') -> (length (queued s) <= cap)%nat -> (length (queued s') <= cap)%nat.
Proof.
  induction l as [|x l IH]; intros s s' E H; cbn [live] in E; [now injection E as <-|].
  destruct (lstep p cap s x) as [[s1|f]|] eqn:Es; [|now destruct l|discriminate]. apply (IH s1 s' E). clear IH E.
  destruct s as [q rg fl a pc ou]. unfold lstep, thread_step, queued in *. cbn [l_act l_q l_reg l_flag l_pc l_out] in *. destruct x.
  - destruct a; try discriminate. injection Es as <-. cbn. lia.
  - destruct a; try discriminate. injection Es as <-. exact H.
  - destruct a; try discriminate. injection Es as <-. exact H.
  - destruct pc; try discriminate; try (injection Es as <-; exact H). destruct q as [[|? ?]|]; try discriminate. injection Es as <-. cbn in *. lia.
  - destruct a; try discriminate; (destruct q as [q|]; [|discriminate]); destruct (Nat.ltb_spec (length q) cap); try discriminate;
    injection Es as <-; cbn; rewrite app_length; cbn; lia.
  - destruct a; try discriminate; (destruct (is_win32 p); [|destruct q; [|discriminate]]); injection Es as <-; cbn; auto; lia.
Qed.
