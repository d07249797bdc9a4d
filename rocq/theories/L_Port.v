(** Proofs about the critical sections of the ports. *)
From Verif Require Import Base L_Base M_Port S_Port.
Local Open Scope N_scope.
Local Arguments Nat.max : simpl never.
Local Arguments N.add : simpl never.
Local Arguments N.sub : simpl never.
Local Arguments N.of_nat : simpl never.
Local Arguments u16 : simpl never.
Local Arguments u32 : simpl never.

(** One instruction of an activity that is not at its end. *)
Definition fstep (p : port) (s : cst) (f : frame) : res (cst * frame) :=
  match ph f with
  | Run (Work k) => Ok (s, mkF (lvl f) (sav f) (lo f) (Run k) (opn f))
  | Run (Sect b k) => Ok (s, mkF (lvl f) (sav f) (lo f) (Entering 0 b k) (opn f))
  | Run Nil => Ok (s, mkF (lvl f) (sav f) (lo f) (Exiting 0) (opn f))
  | Entering pc b k =>
      do (s1, l, n) <- p_enter p pc s (lo f);
      match n with
      | Goto pc' => Ok (s1, mkF (lvl f) (sav f) l (Entering pc' b k) (opn f))
      | Done => Ok (s1, mkF (lvl f) (sav f) l (Run b) (k :: opn f))
      end
  | Exiting pc =>
      do (s1, l, n) <- p_exit p pc s (lo f);
      match n with
      | Goto pc' => Ok (s1, mkF (lvl f) (sav f) l (Exiting pc') (opn f))
      | Done => match opn f with
                | [] => Fault (FUB UB_type)
                | k :: o => Ok (s1, mkF (lvl f) (sav f) l (Run k) o)
                end
      end
  end.

Definition fin (f : frame) : Prop := ph f = Run Nil /\ opn f = [].

Lemma fin_dec f : {fin f} + {~ fin f}.
Proof.
  unfold fin. destruct (ph f) as [[| |]| |], (opn f);
    (left; split; reflexivity) || (right; intros [? ?]; discriminate).
Qed.

Lemma go_fstep p s f r : ~ fin f ->
  go p (mkCf s (f :: r)) = do (s1, f1) <- fstep p s f; Ok (mkCf s1 (f1 :: r)).
Proof.
  intros Hf. unfold go, fstep; cbn [fs cs]. destruct (ph f) as [[|k|b k]|pc b k|pc] eqn:E; try reflexivity.
  - destruct (opn f) eqn:E2; [exfalso; apply Hf; split; assumption|reflexivity].
  - destruct (p_enter p pc s (lo f)) as [[[s1 l] [pc'|]]|]; reflexivity.
  - destruct (p_exit p pc s (lo f)) as [[[s1 l] [pc'|]]|]; try reflexivity.
    cbn. destruct (opn f); reflexivity.
Qed.

Lemma go_fin p s f r : fin f ->
  go p (mkCf s (f :: r)) =
  Ok (match r with
      | [] => mkCf s [f]
      | _ => mkCf (if p_stacked p then set_mask s (sav f) else s) r
      end).
Proof.
  intros [H1 H2]. unfold go; cbn [fs cs]. rewrite H1, H2. destruct r; reflexivity.
Qed.

Lemma crun_inv (p : port) (xs : list source) (P : conf -> Prop) :
  (forall c, P c -> exists c', go p c = Ok c' /\ P c') ->
  (forall c x, P c -> In x xs -> P (irq p c x)) ->
  forall hs c, P c -> exists c', crun p xs c hs = Ok c' /\ P c'.
Proof.
  intros Hg Hi. induction hs as [|h t IH]; intros c Hc; [exists c; split; [reflexivity|assumption]|].
  cbn [crun]. destruct h as [|i]; cbn [cstep].
  - destruct (Hg c Hc) as (c1 & E & H1). rewrite E; cbn [bind]. apply IH; assumption.
  - destruct (nth_error xs i) as [x|] eqn:E; cbn [bind]; apply IH; auto.
    apply Hi; [assumption|]. eapply nth_error_In; eassumption.
Qed.

(** Room for the nesting still to come. *)
Fixpoint ook (cap : nat) (o : list code) : Prop :=
  match o with
  | [] => True
  | k :: t => (length t + depth k <= cap)%nat /\ ook cap t
  end.

Definition dok (cap : nat) (f : frame) : Prop :=
  ook cap (opn f) /\
  match ph f with
  | Run k => (length (opn f) + depth k <= cap)%nat
  | Entering _ b k =>
      (S (length (opn f)) + depth b <= cap)%nat /\ (length (opn f) + depth k <= cap)%nat
  | Exiting _ => (length (opn f) <= cap)%nat
  end.

Definition clean (K : N) (f : frame) : Prop :=
  K < lvl f /\ opn f = [] /\ exists k, ph f = Run k /\ has_sect k = false.

Lemma clean_step p K s f : clean K f -> ~ fin f ->
  exists f', fstep p s f = Ok (s, f') /\ clean K f' /\ lvl f' = lvl f /\ sav f' = sav f.
Proof.
  intros (H1 & H2 & k & H3 & H4) Hn. unfold fstep. rewrite H3.
  destruct k as [|k|b k]; [exfalso; apply Hn; split; assumption| |discriminate].
  eexists; split; [reflexivity|]. cbn. repeat split; auto. exists k. auto.
Qed.

(** Ports of processors that leave the mask alone. *)
Section Lock.
  Context (p : port) (K m0 : N) (cap : nat) (xs : list source).
  Context (Hns : p_stacked p = false) (HK : m0 <= K) (Hxs : sources_ok K cap xs).
  Context (pre : frame -> Prop) (hold : cst -> frame -> Prop) (free : cst -> Prop).
  Context (pre_step : forall s f, free s -> mask s = m0 -> pre f -> ~ fin f ->
     exists s' f', fstep p s f = Ok (s', f') /\
       ((free s' /\ mask s' = m0 /\ pre f') \/ (hold s' f' /\ mask s' = K))).
  Context (hold_step : forall s f, hold s f -> mask s = K ->
     exists s' f', fstep p s f = Ok (s', f') /\
       ((free s' /\ mask s' = m0 /\ pre f') \/ (hold s' f' /\ mask s' = K))).
  Context (pre_opn : forall f, pre f -> opn f = []).
  Context (hold_in : forall s f, hold s f -> ~ outside f).
  Context (pre_new : forall x m, In x xs -> pre (mkF (fst x) m loc0 (Run (snd x)) [])).

  Definition linv (c : conf) : Prop :=
    (fs c <> [] /\ Forall pre (fs c) /\ free (cs c) /\ mask (cs c) = m0) \/
    (exists up f down, fs c = up ++ f :: down /\ Forall (clean K) up /\ Forall pre down /\
       hold (cs c) f /\ mask (cs c) = K).

  Lemma hold_fin s f : hold s f -> ~ fin f.
  Proof.
    intros H [H1 H2]. apply (hold_in _ _ H). split; [assumption|]. exists Nil; assumption.
  Qed.

  Lemma linv_go c : linv c -> exists c', go p c = Ok c' /\ linv c'.
  Proof.
    destruct c as [s l]. intros [(Hne & Hp & Hf & Hm)|(up & f & down & E & Hu & Hd & Hh & Hm)];
      cbn [cs fs] in *.
    - destruct l as [|f r]; [congruence|]. inversion Hp; subst.
      destruct (fin_dec f) as [F|F].
      + rewrite (go_fin _ _ _ _ F), Hns. eexists; split; [reflexivity|]. left.
        destruct r; cbn; repeat split; auto; discriminate.
      + rewrite (go_fstep _ _ _ _ F).
        destruct (pre_step s f Hf Hm H1 F) as (s' & f' & E & D). rewrite E; cbn [bind].
        eexists; split; [reflexivity|]. destruct D as [(D1 & D2 & D3)|(D1 & D2)].
        * left. cbn. repeat split; auto; discriminate.
        * right. exists [], f', r. cbn. repeat split; auto.
    - subst l. destruct up as [|u up]; cbn [app].
      + rewrite (go_fstep _ _ _ _ (hold_fin _ _ Hh)).
        destruct (hold_step s f Hh Hm) as (s' & f' & E & D). rewrite E; cbn [bind].
        eexists; split; [reflexivity|]. destruct D as [(D1 & D2 & D3)|(D1 & D2)].
        * left. cbn. repeat split; auto; discriminate.
        * right. exists [], f', down. cbn. repeat split; auto.
      + inversion Hu; subst. destruct (fin_dec u) as [F|F].
        * rewrite (go_fin _ _ _ _ F), Hns.
          exists (mkCf s (up ++ f :: down)). split; [destruct up; reflexivity|].
          right. exists up, f, down. cbn. repeat split; auto.
        * rewrite (go_fstep _ _ _ _ F).
          destruct (clean_step p K s u H1 F) as (u' & E & D & _). rewrite E; cbn [bind].
          eexists; split; [reflexivity|]. right. exists (u' :: up), f, down. cbn.
          repeat split; auto.
  Qed.

  Lemma linv_irq c x : linv c -> In x xs -> linv (irq p c x).
  Proof.
    intros H Hx. unfold irq. destruct (accepts p c (fst x)) eqn:E; [|assumption].
    rewrite Hns. unfold accepts in E. rewrite Hns in E. apply andb_true_iff in E as [E _].
    apply N.ltb_lt in E. destruct H as [(Hne & Hp & Hf & Hm)|(up & f & down & E2 & Hu & Hd & Hh & Hm)].
    - left. cbn. repeat split; auto. discriminate.
    - right. exists (mkF (fst x) (mask (cs c)) loc0 (Run (snd x)) [] :: up), f, down. cbn.
      rewrite E2. repeat split; auto. constructor; [|assumption].
      destruct (Hxs x Hx) as (_ & H2 & _). split; [cbn; lia|]. cbn. split; [reflexivity|].
      exists (snd x). split; [reflexivity|]. destruct (has_sect (snd x)); [|reflexivity].
      specialize (H2 eq_refl). lia.
  Qed.

  Lemma clean_inside f : clean K f -> ~ inside f.
  Proof. intros (_ & H & _) H2. exact (H2 H). Qed.

  Lemma linv_safe c : linv c -> safe p xs (fun f => N.max m0 (lvl f)) c.
  Proof.
    intros H. split.
    - intros i j f g Hi If Hj Ig.
      destruct H as [(Hne & Hp & Hf & Hm)|(up & h & down & E2 & Hu & Hd & Hh & Hm)].
      + exfalso. apply If. apply pre_opn. rewrite Forall_forall in Hp. apply Hp.
        eapply nth_error_In; eassumption.
      + assert (Hat : forall n y, nth_error (fs c) n = Some y -> inside y -> n = length up).
        { intros n y Hn Iy. rewrite E2 in Hn. rewrite Forall_forall in Hu, Hd.
          destruct (Nat.lt_trichotomy n (length up)) as [C|[C|C]]; [|assumption|].
          - rewrite nth_error_app1 in Hn by lia. exfalso.
            exact (clean_inside y (Hu y (nth_error_In _ _ Hn)) Iy).
          - rewrite nth_error_app2 in Hn by lia.
            destruct (n - length up)%nat as [|q] eqn:Eq; [lia|]. cbn in Hn. exfalso.
            apply Iy. apply pre_opn. apply Hd. eapply nth_error_In; eassumption. }
        rewrite (Hat _ _ Hi If), (Hat _ _ Hj Ig). reflexivity.
    - intros f x Hin If Hx Ha.
      destruct H as [(Hne & Hp & Hf & Hm)|(up & h & down & E2 & Hu & Hd & Hh & Hm)].
      + exfalso. apply If. apply pre_opn. rewrite Forall_forall in Hp. apply Hp; assumption.
      + unfold accepts in Ha. apply andb_true_iff in Ha as [Ha _]. apply N.ltb_lt in Ha.
        destruct (Hxs x Hx) as (_ & H2 & _). destruct (has_sect (snd x)); [|reflexivity].
        specialize (H2 eq_refl). lia.
    - intros f r l E Ho. unfold accepts. rewrite Hns, E, andb_true_iff, orb_false_l, !N.ltb_lt.
      destruct H as [(Hne & Hp & Hf & Hm)|(up & h & down & E2 & Hu & Hd & Hh & Hm)].
      + rewrite Hm. lia.
      + rewrite E in E2. destruct up as [|u up]; cbn in E2; injection E2 as -> ->.
        * exfalso. exact (hold_in _ _ Hh Ho).
        * apply Forall_inv in Hu. destruct Hu as [H1 _]. rewrite Hm. lia.
  Qed.

  Lemma lock_safe c hs : linv c ->
    exists c', crun p xs c hs = Ok c' /\ safe p xs (fun f => N.max m0 (lvl f)) c'.
  Proof.
    intros H. destruct (crun_inv p xs linv linv_go linv_irq hs c H) as (c' & E & H').
    exists c'. split; [assumption|]. apply linv_safe; assumption.
  Qed.
End Lock.

Lemma u32_small n : n < 4294967296 -> u32 n = n.
Proof. intros H. apply N.mod_small. exact H. Qed.

Lemma u32_dec n : 0 < n -> n < 4294967296 -> u32 (n + 4294967295) = n - 1.
Proof.
  intros H H2. unfold u32. replace (n + 4294967295) with ((n - 1) + 1 * 4294967296) by lia.
  rewrite N.mod_add by lia. apply N.mod_small. lia.
Qed.

(** * Cortex-M with the counter *)
Section Cm.
  Context (K : N) (cap : nat) (Hcap : N.of_nat cap < 4294967296).

  Definition nopn (f : frame) : N := N.of_nat (length (opn f)).

  Definition cm_pre (f : frame) : Prop :=
    dok cap f /\ opn f = [] /\
    match ph f with
    | Run _ => True
    | Entering pc _ _ => pc = 0%nat \/ (pc = 1%nat /\ ra (lo f) = K)
    | Exiting _ => False
    end.

  Definition cm_hold (s : cst) (f : frame) : Prop :=
    dok cap f /\
    match ph f with
    | Run _ => opn f <> [] /\ cnt s = nopn f
    | Entering pc _ _ =>
        cnt s = nopn f /\ (opn f = [] -> (2 <= pc)%nat) /\
        (pc = 0%nat \/ pc = 1%nat /\ ra (lo f) = K \/ pc = 2%nat \/
         pc = 3%nat /\ ra (lo f) = nopn f \/ pc = 4%nat /\ ra (lo f) = nopn f + 1)
    | Exiting pc =>
        opn f <> [] /\
        (pc = 0%nat /\ cnt s = nopn f \/
         pc = 1%nat /\ cnt s = nopn f /\ ra (lo f) = nopn f \/
         pc = 2%nat /\ cnt s = nopn f /\ ra (lo f) = nopn f - 1 \/
         pc = 3%nat /\ cnt s = nopn f - 1 \/
         pc = 4%nat /\ cnt s = 0 /\ length (opn f) = 1%nat \/
         pc = 5%nat /\ cnt s = 0 /\ length (opn f) = 1%nat /\ ra (lo f) = 0)
    end.

  Definition cm_free (s : cst) : Prop := cnt s = 0.

  Lemma cm_pre_step s f : cm_free s -> mask s = 0 -> cm_pre f -> ~ fin f ->
     exists s' f', fstep (cm K) s f = Ok (s', f') /\
       ((cm_free s' /\ mask s' = 0 /\ cm_pre f') \/ (cm_hold s' f' /\ mask s' = K)).
  Proof.
    destruct s as [mk cn sr sk s0], f as [lv sv l P o].
    unfold cm_free, cm_pre, cm_hold, dok, nopn, fin, fstep. cbn [mask cnt ph opn lo lvl sav].
    intros Hc Hm ((D1 & D2) & Ho & HP) Hn. subst o.
    destruct P as [[|k|b k]|pc b k|pc]; cbn in *.
    - exfalso; auto.
    - eexists _, _; split; [reflexivity|]. left. cbn. auto.
    - eexists _, _; split; [reflexivity|]. left. cbn. repeat split; auto; lia.
    - destruct HP as [->|[-> HP]]; cbn.
      + eexists _, _; split; [reflexivity|]. left. cbn. repeat split; auto; try lia.
      + eexists _, _; split; [reflexivity|]. right. cbn. rewrite HP. repeat split; auto; lia.
    - contradiction.
  Qed.

  Lemma cm_hold_step s f : cm_hold s f -> mask s = K ->
     exists s' f', fstep (cm K) s f = Ok (s', f') /\
       ((cm_free s' /\ mask s' = 0 /\ cm_pre f') \/ (cm_hold s' f' /\ mask s' = K)).
  Proof.
    destruct s as [mk cn sr sk s0], f as [lv sv l P o].
    unfold cm_free, cm_pre, cm_hold, dok, nopn, fin, fstep. cbn [mask cnt ph opn lo lvl sav].
    intros ((D1 & D2) & HP) Hm. subst mk.
    destruct P as [[|k|b k]|pc b k|pc]; cbn in *.
    - destruct HP as [HP Hc]. eexists _, _; split; [reflexivity|]. right. cbn.
      repeat split; auto; lia.
    - destruct HP as [HP Hc]. eexists _, _; split; [reflexivity|]. right. cbn. auto.
    - destruct HP as [HP Hc]. eexists _, _; split; [reflexivity|]. right. cbn.
      repeat split; auto; try lia. intros; contradiction.
    - destruct HP as (Hc & Hz & [->|[[-> HP]|[->|[[-> HP]|[-> HP]]]]]); cbn.
      + eexists _, _; split; [reflexivity|]. right. cbn. repeat split; auto; try lia.
      + eexists _, _; split; [reflexivity|]. right. cbn. repeat split; auto; try lia.
      + eexists _, _; split; [reflexivity|]. right. cbn. repeat split; auto; try lia.
      + eexists _, _; split; [reflexivity|]. right. cbn. repeat split; auto; try lia.
        rewrite HP, u32_small by lia. lia.
      + eexists _, _; split; [reflexivity|]. right. cbn. repeat split; auto; try lia.
        discriminate.
    - destruct HP as (Hz & HP). assert (0 < length o)%nat by (destruct o; [congruence|cbn; lia]).
      destruct HP as [[-> HP]|[(-> & HP & Hr)|[(-> & HP & Hr)|[(-> & HP)|[(-> & HP & Hl)|(-> & HP & Hl & Hr)]]]]]; cbn.
      + eexists _, _; split; [reflexivity|]. right. cbn. repeat split; auto; lia.
      + eexists _, _; split; [reflexivity|]. right. cbn. repeat split; auto.
        rewrite Hr, u32_dec by lia. right; right; left. auto.
      + eexists _, _; split; [reflexivity|]. right. cbn. repeat split; auto; lia.
      + destruct (N.eqb_spec cn 0).
        * eexists _, _; split; [reflexivity|]. right. cbn. repeat split; auto.
          right; right; right; right; left. repeat split; lia.
        * destruct o as [|k o]; [congruence|]. eexists _, _; split; [reflexivity|]. right. cbn in *.
          repeat split; try tauto; try lia. intros ->. cbn in *; lia.
      + eexists _, _; split; [reflexivity|]. right. cbn. repeat split; auto.
        do 5 right. auto.
      + destruct o as [|k [|k2 o]]; cbn in *; try lia.
        eexists _, _; split; [reflexivity|]. left. cbn. rewrite Hr. repeat split; auto; lia.
  Qed.

  Lemma cm_hold_in s f : cm_hold s f -> ~ outside f.
  Proof.
    intros (_ & H) (Ho & k & E). rewrite E in H. tauto.
  Qed.

  Lemma cm_safe xs main hs :
    sources_ok K cap xs -> (depth main <= cap)%nat ->
    exists c, crun (cm K) xs (conf0 (cm K) 0 main) hs = Ok c /\ safe (cm K) xs lvl c.
  Proof.
    intros Hxs Hd.
    destruct (lock_safe (cm K) K 0 cap xs eq_refl (N.le_0_l _) Hxs cm_pre cm_hold cm_free
                cm_pre_step cm_hold_step) with (c := conf0 (cm K) 0 main) (hs := hs)
      as (c & E & H).
    - intros f (_ & H & _). exact H.
    - exact cm_hold_in.
    - intros x m Hx. destruct (Hxs x Hx) as (_ & _ & H). repeat split; cbn; auto.
    - left. unfold cm_free; cbn. repeat split; auto; try discriminate.
      constructor; [|constructor]. repeat split; cbn; auto.
    - exists c. split; [assumption|]. destruct H as [H1 H2 H3]. split; auto.
      intros f r l Ef Ho. rewrite (H3 f r l Ef Ho). rewrite N.max_0_l. reflexivity.
  Qed.
End Cm.

(** * Cortex-M with the local variable *)
Section Stm.
  Context (K m0 : N) (HK : m0 <= K) (cap : nat) (Hcap : N.of_nat cap < 4294967296).

  Definition stm_pre (f : frame) : Prop :=
    dok cap f /\ opn f = [] /\ srs (lo f) = [] /\
    match ph f with
    | Run _ => True
    | Entering pc _ _ => pc = 0%nat \/ (pc = 1%nat /\ ra (lo f) = m0)
    | Exiting _ => False
    end.

  (** [n] saved values, the outermost of which is the mask to be restored. *)
  Definition saved (n : nat) (f : frame) : Prop :=
    length (srs (lo f)) = n /\ last (srs (lo f)) m0 = m0.

  Definition stm_hold (s : cst) (f : frame) : Prop :=
    dok cap f /\
    match ph f with
    | Run _ => opn f <> [] /\ cnt s = nopn f /\ saved (length (opn f)) f
    | Entering pc _ _ =>
        cnt s = nopn f /\ (opn f = [] -> (2 <= pc)%nat) /\
        (pc = 0%nat /\ saved (length (opn f)) f \/
         pc = 1%nat /\ saved (length (opn f)) f \/
         pc = 2%nat /\ saved (length (opn f)) f /\ (opn f = [] -> ra (lo f) = m0) \/
         pc = 3%nat /\ saved (S (length (opn f))) f \/
         pc = 4%nat /\ ra (lo f) = nopn f /\ saved (S (length (opn f))) f \/
         pc = 5%nat /\ ra (lo f) = nopn f + 1 /\ saved (S (length (opn f))) f)
    | Exiting pc =>
        opn f <> [] /\ saved (length (opn f)) f /\
        (pc = 0%nat /\ cnt s = nopn f \/
         pc = 1%nat /\ cnt s = nopn f /\ ra (lo f) = nopn f \/
         pc = 2%nat /\ cnt s = nopn f /\ ra (lo f) = nopn f - 1 \/
         pc = 3%nat /\ cnt s = nopn f - 1 \/
         pc = 4%nat /\ cnt s = 0 /\ length (opn f) = 1%nat)
    end.

  Lemma stm_pre_step s f : cm_free s -> mask s = m0 -> stm_pre f -> ~ fin f ->
     exists s' f', fstep (stm K) s f = Ok (s', f') /\
       ((cm_free s' /\ mask s' = m0 /\ stm_pre f') \/ (stm_hold s' f' /\ mask s' = K)).
  Proof.
    destruct s as [mk cn sr sk s0], f as [lv sv l P o].
    unfold cm_free, stm_pre, stm_hold, saved, dok, nopn, fin, fstep. cbn [mask cnt ph opn lo lvl sav].
    intros Hc Hm ((D1 & D2) & Ho & Hs & HP) Hn. subst o.
    destruct P as [[|k|b k]|pc b k|pc]; cbn in *.
    - exfalso; auto.
    - eexists _, _; split; [reflexivity|]. left. cbn. repeat split; auto.
    - eexists _, _; split; [reflexivity|]. left. cbn. repeat split; auto; lia.
    - destruct HP as [->|[-> HP]]; cbn.
      + eexists _, _; split; [reflexivity|]. left. cbn. repeat split; auto; try lia.
      + eexists _, _; split; [reflexivity|]. right. cbn. rewrite Hs. cbn.
        repeat split; auto; try lia.
    - contradiction.
  Qed.

  Lemma stm_hold_step s f : stm_hold s f -> mask s = K ->
     exists s' f', fstep (stm K) s f = Ok (s', f') /\
       ((cm_free s' /\ mask s' = m0 /\ stm_pre f') \/ (stm_hold s' f' /\ mask s' = K)).
  Proof.
    destruct s as [mk cn sr sk s0], f as [lv sv [a x ss] P o].
    unfold cm_free, stm_pre, stm_hold, saved, dok, nopn, fin, fstep. cbn [mask cnt ph opn lo lvl sav].
    intros ((D1 & D2) & HP) Hm. subst mk.
    destruct P as [[|k|b k]|pc b k|pc]; cbn in *.
    - destruct HP as [HP Hc]. eexists _, _; split; [reflexivity|]. right. cbn.
      repeat split; try tauto; lia.
    - destruct HP as [HP Hc]. eexists _, _; split; [reflexivity|]. right. cbn. auto.
    - destruct HP as [HP Hc]. eexists _, _; split; [reflexivity|]. right. cbn.
      repeat split; try tauto; try lia.
    - destruct HP as (Hc & Hz & [(-> & S1 & S2)|[(-> & S1 & S2)|[(-> & (S1 & S2) & S3)|[(-> & S1 & S2)|[(-> & HP & S1 & S2)|(-> & HP & S1 & S2)]]]]]); cbn.
      + eexists _, _; split; [reflexivity|]. right. cbn. repeat split; auto; try lia.
      + assert (o <> []) by (intros E; specialize (Hz E); lia).
        eexists _, _; split; [reflexivity|]. right. cbn. repeat split; auto; try lia.
        do 2 right. left. repeat split; auto. intros; contradiction.
      + eexists _, _; split; [reflexivity|]. right. cbn. repeat split; auto; try lia.
        do 3 right. left. repeat split; [lia|]. destruct ss as [|v ss]; [|exact S2].
        apply S3. destruct o; [reflexivity|discriminate].
      + eexists _, _; split; [reflexivity|]. right. cbn. repeat split; auto; try lia.
      + eexists _, _; split; [reflexivity|]. right. cbn. repeat split; auto; try lia.
        do 5 right. rewrite HP, u32_small by lia. repeat split; auto; lia.
      + eexists _, _; split; [reflexivity|]. right. cbn. repeat split; auto; try lia.
        discriminate.
    - destruct HP as (Hz & (S1 & S2) & HP).
      assert (0 < length o)%nat by (destruct o; [congruence|cbn; lia]).
      destruct HP as [[-> HP]|[(-> & HP & Hr)|[(-> & HP & Hr)|[(-> & HP)|(-> & HP & Hl)]]]]; cbn.
      + eexists _, _; split; [reflexivity|]. right. cbn. repeat split; auto; lia.
      + eexists _, _; split; [reflexivity|]. right. cbn. repeat split; auto.
        rewrite Hr, u32_dec by lia. right; right; left. auto.
      + eexists _, _; split; [reflexivity|]. right. cbn. repeat split; auto; lia.
      + destruct (N.eqb_spec cn 0).
        * eexists _, _; split; [reflexivity|]. right. cbn. repeat split; auto.
          right; right; right; right. repeat split; lia.
        * destruct o as [|k o]; [congruence|]. eexists _, _; split; [reflexivity|]. right. cbn in *.
          destruct ss as [|v ss]; [discriminate|]. cbn in S1.
          assert (o <> []) by (intros ->; cbn in *; lia).
          destruct ss as [|w ss]; [destruct o; [congruence|discriminate]|].
          repeat split; try tauto; cbn [tl]; try lia.
      + destruct o as [|k [|k2 o]]; cbn in *; try lia.
        destruct ss as [|v [|w ss]]; try discriminate. cbn in S2.
        eexists _, _; split; [reflexivity|]. left. cbn. repeat split; auto; try lia.
  Qed.

  Lemma stm_hold_in s f : stm_hold s f -> ~ outside f.
  Proof.
    intros (_ & H) (Ho & k & E). rewrite E in H. tauto.
  Qed.

  Lemma stm_safe xs main hs :
    sources_ok K cap xs -> (depth main <= cap)%nat ->
    exists c, crun (stm K) xs (conf0 (stm K) m0 main) hs = Ok c /\
      safe (stm K) xs (fun f => N.max m0 (lvl f)) c.
  Proof.
    intros Hxs Hd.
    apply (lock_safe (stm K) K m0 cap xs eq_refl HK Hxs stm_pre stm_hold cm_free
                stm_pre_step stm_hold_step).
    - intros f (_ & H & _). exact H.
    - exact stm_hold_in.
    - intros x m Hx. destruct (Hxs x Hx) as (_ & _ & H). repeat split; cbn; auto.
    - left. unfold cm_free; cbn. repeat split; auto; try discriminate.
      constructor; [|constructor]. repeat split; cbn; auto.
  Qed.
End Stm.

(** * Processors that save the mask *)

(** The mask in force and those saved in the frames are the wanted ones. *)
Fixpoint mch (m : N) (l : list frame) (es : list N) : Prop :=
  match l, es with
  | [], [] => True
  | f :: r, e :: t => m = e /\ mch (sav f) r t
  | _, _ => False
  end.

Section SLock.
  Context (p : port) (K : N) (cap : nat) (xs : list source).
  Context (Hst : p_stacked p = true) (Hxs : sources_ok K cap xs).
  Context (pre : frame -> Prop) (hold : cst -> frame -> Prop) (free : cst -> Prop).
  Context (pre_step : forall s f, free s -> mask s = lvl f -> pre f -> ~ fin f ->
     exists s' f', fstep p s f = Ok (s', f') /\ lvl f' = lvl f /\ sav f' = sav f /\
       ((free s' /\ mask s' = lvl f /\ pre f') \/ (hold s' f' /\ mask s' = K))).
  Context (hold_step : forall s f, hold s f -> mask s = K ->
     exists s' f', fstep p s f = Ok (s', f') /\ lvl f' = lvl f /\ sav f' = sav f /\
       ((free s' /\ mask s' = lvl f /\ pre f') \/ (hold s' f' /\ mask s' = K))).
  Context (pre_opn : forall f, pre f -> opn f = []).
  Context (hold_in : forall s f, hold s f -> ~ outside f).
  Context (free_mask : forall s v, free s -> free (set_mask s v)).
  Context (hold_mask : forall s v f, hold s f -> hold (set_mask s v) f).
  Context (pre_new : forall x m, In x xs -> pre (mkF (fst x) m loc0 (Run (snd x)) [])).

  Definition slinv (c : conf) : Prop :=
    (fs c <> [] /\ Forall pre (fs c) /\ free (cs c) /\ mch (mask (cs c)) (fs c) (map lvl (fs c))) \/
    (exists up f down, fs c = up ++ f :: down /\ Forall (clean K) up /\ Forall pre down /\
       hold (cs c) f /\ mch (mask (cs c)) (fs c) (map lvl up ++ K :: map lvl down)).

  Lemma shold_fin s f : hold s f -> ~ fin f.
  Proof.
    intros H [H1 H2]. apply (hold_in _ _ H). split; [assumption|]. exists Nil; assumption.
  Qed.

  Lemma slinv_go c : slinv c -> exists c', go p c = Ok c' /\ slinv c'.
  Proof.
    destruct c as [s l]. intros [(Hne & Hp & Hf & Hm)|(up & f & down & E & Hu & Hd & Hh & Hm)];
      cbn [cs fs] in *.
    - destruct l as [|f r]; [congruence|]. pose proof (Forall_inv Hp) as H1.
      pose proof (Forall_inv_tail Hp) as H2. destruct Hm as [Hm1 Hm2].
      destruct (fin_dec f) as [F|F].
      + rewrite (go_fin _ _ _ _ F), Hst. eexists; split; [reflexivity|]. left.
        destruct r as [|g r]; cbn [cs fs mask set_mask]; repeat split; auto; try discriminate.
        * exact (proj1 Hm2).
        * exact (proj2 Hm2).
      + rewrite (go_fstep _ _ _ _ F).
        destruct (pre_step s f Hf Hm1 H1 F) as (s' & f' & E & E1 & E2 & D). rewrite E; cbn [bind].
        eexists; split; [reflexivity|]. destruct D as [(D1 & D2 & D3)|(D1 & D2)].
        * left. cbn. rewrite E1, E2. repeat split; auto; discriminate.
        * right. exists [], f', r. cbn. rewrite E2. repeat split; auto.
    - subst l. destruct up as [|u up]; cbn [app map] in *.
      + destruct Hm as [Hm1 Hm2]. rewrite (go_fstep _ _ _ _ (shold_fin _ _ Hh)).
        destruct (hold_step s f Hh Hm1) as (s' & f' & E & E1 & E2 & D). rewrite E; cbn [bind].
        eexists; split; [reflexivity|]. destruct D as [(D1 & D2 & D3)|(D1 & D2)].
        * left. cbn. rewrite E1, E2. repeat split; auto; discriminate.
        * right. exists [], f', down. cbn. rewrite E2. repeat split; auto.
      + destruct Hm as [Hm1 Hm2]. pose proof (Forall_inv Hu) as H1.
        pose proof (Forall_inv_tail Hu) as H2. destruct (fin_dec u) as [F|F].
        * rewrite (go_fin _ _ _ _ F), Hst.
          exists (mkCf (set_mask s (sav u)) (up ++ f :: down)).
          split; [destruct up; reflexivity|].
          right. exists up, f, down. cbn. repeat split; auto.
        * rewrite (go_fstep _ _ _ _ F).
          destruct (clean_step p K s u H1 F) as (u' & E & D & D1 & D2). rewrite E; cbn [bind].
          eexists; split; [reflexivity|]. right. exists (u' :: up), f, down. cbn.
          rewrite D1, D2. repeat split; auto.
  Qed.

  Lemma slinv_mask up f down s :
    mch (mask s) (up ++ f :: down) (map lvl up ++ K :: map lvl down) ->
    Forall (clean K) up -> K <= mask s.
  Proof.
    destruct up as [|u up]; cbn; intros [H _] Hu; [lia|].
    apply Forall_inv in Hu. destruct Hu. lia.
  Qed.

  Lemma slinv_irq c x : slinv c -> In x xs -> slinv (irq p c x).
  Proof.
    intros H Hx. unfold irq. destruct (accepts p c (fst x)) eqn:E; [|assumption].
    rewrite Hst. unfold accepts in E. rewrite Hst in E. apply andb_true_iff in E as [E _].
    apply N.ltb_lt in E. destruct H as [(Hne & Hp & Hf & Hm)|(up & f & down & E2 & Hu & Hd & Hh & Hm)].
    - left. cbn. repeat split; auto. discriminate.
    - right. exists (mkF (fst x) (mask (cs c)) loc0 (Run (snd x)) [] :: up), f, down. cbn.
      rewrite E2 in *. pose proof (slinv_mask _ _ _ _ Hm Hu) as Hk.
      repeat split; auto. constructor; [|assumption].
      destruct (Hxs x Hx) as (_ & H2 & _). split; [cbn; lia|]. cbn. split; [reflexivity|].
      exists (snd x). split; [reflexivity|]. destruct (has_sect (snd x)); [|reflexivity].
      specialize (H2 eq_refl). lia.
  Qed.

  Lemma slinv_safe c : slinv c -> safe p xs lvl c.
  Proof.
    intros H. split.
    - intros i j f g Hi If Hj Ig.
      destruct H as [(Hne & Hp & Hf & Hm)|(up & h & down & E2 & Hu & Hd & Hh & Hm)].
      + exfalso. apply If. apply pre_opn. rewrite Forall_forall in Hp. apply Hp.
        eapply nth_error_In; eassumption.
      + assert (Hat : forall n y, nth_error (fs c) n = Some y -> inside y -> n = length up).
        { intros n y Hn Iy. rewrite E2 in Hn. rewrite Forall_forall in Hu, Hd.
          destruct (Nat.lt_trichotomy n (length up)) as [C|[C|C]]; [|assumption|].
          - rewrite nth_error_app1 in Hn by lia. exfalso.
            exact (clean_inside K y (Hu y (nth_error_In _ _ Hn)) Iy).
          - rewrite nth_error_app2 in Hn by lia.
            destruct (n - length up)%nat as [|q] eqn:Eq; [lia|]. cbn in Hn. exfalso.
            apply Iy. apply pre_opn. apply Hd. eapply nth_error_In; eassumption. }
        rewrite (Hat _ _ Hi If), (Hat _ _ Hj Ig). reflexivity.
    - intros f x Hin If Hx Ha.
      destruct H as [(Hne & Hp & Hf & Hm)|(up & h & down & E2 & Hu & Hd & Hh & Hm)].
      + exfalso. apply If. apply pre_opn. rewrite Forall_forall in Hp. apply Hp; assumption.
      + unfold accepts in Ha. apply andb_true_iff in Ha as [Ha _]. apply N.ltb_lt in Ha.
        rewrite E2 in Hm. pose proof (slinv_mask _ _ _ _ Hm Hu) as Hk.
        destruct (Hxs x Hx) as (_ & H2 & _). destruct (has_sect (snd x)); [|reflexivity].
        specialize (H2 eq_refl). lia.
    - intros f r l E Ho. unfold accepts. rewrite Hst, orb_true_l, andb_true_r, N.ltb_lt.
      destruct H as [(Hne & Hp & Hf & Hm)|(up & h & down & E2 & Hu & Hd & Hh & Hm)].
      + rewrite E in Hm. destruct Hm as [-> _]. reflexivity.
      + rewrite E in E2, Hm. destruct up as [|u up]; cbn in E2; injection E2 as -> ->.
        * exfalso. exact (hold_in _ _ Hh Ho).
        * destruct Hm as [-> _]. reflexivity.
  Qed.

  Lemma slock_safe c hs : slinv c ->
    exists c', crun p xs c hs = Ok c' /\ safe p xs lvl c'.
  Proof.
    intros H. destruct (crun_inv p xs slinv slinv_go slinv_irq hs c H) as (c' & E & H').
    exists c'. split; [assumption|]. apply slinv_safe; assumption.
  Qed.
End SLock.

(** * S08: a stack of saved masks *)
Section S08.
  Definition s_pre (f : frame) : Prop :=
    dok 8 f /\ opn f = [] /\
    match ph f with
    | Run _ => True
    | Entering pc _ _ => pc = 0%nat \/ (pc = 1%nat /\ ra (lo f) = lvl f)
    | Exiting _ => False
    end.

  (** The first [n] places: the mask the activity had, then the mask of a
      section. *)
  Definition filled (n : nat) (k : list N) (b : N) : Prop :=
    length k = 8%nat /\
    forall i, (i < n)%nat -> nth_error k i = Some (match i with O => b | _ => 1 end).

  Definition cur (f : frame) : N := match opn f with [] => lvl f | _ => 1 end.

  Definition s_hold (s : cst) (f : frame) : Prop :=
    dok 8 f /\
    let n := length (opn f) in
    match ph f with
    | Run _ => opn f <> [] /\ sp s = n /\ filled n (stk s) (lvl f)
    | Entering pc _ _ =>
        sp s = n /\ (opn f = [] -> (2 <= pc)%nat) /\ filled n (stk s) (lvl f) /\
        (pc = 0%nat \/
         pc = 1%nat /\ ra (lo f) = cur f \/
         pc = 2%nat /\ ra (lo f) = cur f \/
         pc = 3%nat /\ ra (lo f) = cur f /\ rx (lo f) = n \/
         pc = 4%nat /\ rx (lo f) = n /\ filled (S n) (stk s) (lvl f) \/
         pc = 5%nat /\ rx (lo f) = S n /\ filled (S n) (stk s) (lvl f))
    | Exiting pc =>
        opn f <> [] /\
        (pc = 0%nat /\ sp s = n /\ filled n (stk s) (lvl f) \/
         pc = 1%nat /\ sp s = n /\ rx (lo f) = n /\ filled n (stk s) (lvl f) \/
         pc = 2%nat /\ sp s = n /\ rx (lo f) = (n - 1)%nat /\ filled n (stk s) (lvl f) \/
         pc = 3%nat /\ sp s = (n - 1)%nat /\ rx (lo f) = (n - 1)%nat /\ filled n (stk s) (lvl f) \/
         pc = 4%nat /\ sp s = (n - 1)%nat /\ filled n (stk s) (lvl f) /\
           ra (lo f) = match n with 1%nat => lvl f | _ => 1 end)
    end.

  Definition s_free (s : cst) : Prop := sp s = 0%nat /\ length (stk s) = 8%nat.

  Lemma filled_le n m k b : (m <= n)%nat -> filled n k b -> filled m k b.
  Proof. intros H [H1 H2]. split; [assumption|]. intros i Hi. apply H2. lia. Qed.

  Lemma filled_push n k b : (n < 8)%nat -> filled n k b ->
    exists k', wr k n (match n with O => b | _ => 1 end) = Ok k' /\ filled (S n) k' b.
  Proof.
    intros Hn [H1 H2]. rewrite wr_lt by lia. eexists; split; [reflexivity|].
    split; [rewrite length_upd; assumption|]. intros i Hi.
    destruct (Nat.eq_dec i n) as [->|Hne].
    - rewrite nth_upd_eq by lia. reflexivity.
    - rewrite nth_upd_ne by lia. apply H2. lia.
  Qed.

  Lemma s_pre_step s f : s_free s -> mask s = lvl f -> s_pre f -> ~ fin f ->
     exists s' f', fstep s08 s f = Ok (s', f') /\ lvl f' = lvl f /\ sav f' = sav f /\
       ((s_free s' /\ mask s' = lvl f /\ s_pre f') \/ (s_hold s' f' /\ mask s' = 1)).
  Proof.
    destruct s as [mk cn sr sk s0], f as [lv sv l P o].
    unfold s_free, s_pre, s_hold, dok, fin, fstep, cur. cbn [mask cnt sp stk ph opn lo lvl sav].
    intros (Hc & Hk) Hm ((D1 & D2) & Ho & HP) Hn. subst o mk.
    destruct P as [[|k|b k]|pc b k|pc]; cbn in *.
    - exfalso; auto.
    - eexists _, _; split; [reflexivity|]. cbn. repeat split; auto. left. repeat split; auto.
    - eexists _, _; split; [reflexivity|]. cbn. repeat split; auto. left. repeat split; auto; lia.
    - destruct HP as [->|[-> HP]]; cbn.
      + eexists _, _; split; [reflexivity|]. cbn. repeat split; auto. left. repeat split; auto; lia.
      + eexists _, _; split; [reflexivity|]. cbn. repeat split; auto. right.
        repeat split; auto; try lia.
    - contradiction.
  Qed.

  Lemma s_hold_step s f : s_hold s f -> mask s = 1 ->
     exists s' f', fstep s08 s f = Ok (s', f') /\ lvl f' = lvl f /\ sav f' = sav f /\
       ((s_free s' /\ mask s' = lvl f /\ s_pre f') \/ (s_hold s' f' /\ mask s' = 1)).
  Proof.
    destruct s as [mk cn sr sk s0], f as [lv sv [a x ss] P o].
    unfold s_free, s_pre, s_hold, dok, fin, fstep, cur. cbn [mask cnt sp stk ph opn lo lvl sav].
    intros ((D1 & D2) & HP) Hm. subst mk.
    destruct P as [[|k|b k]|pc b k|pc]; cbn in *.
    - destruct HP as (Hz & Hs & Hf). eexists _, _; split; [reflexivity|]. cbn.
      repeat split; auto. right. repeat split; auto; try lia.
    - destruct HP as (Hz & Hs & Hf). eexists _, _; split; [reflexivity|]. cbn.
      repeat split; auto. right. repeat split; auto; try apply Hf; try lia.
    - destruct HP as (Hz & Hs & Hf). eexists _, _; split; [reflexivity|]. cbn.
      repeat split; auto. right. repeat split; auto; try apply Hf; try lia.
      intros; contradiction.
    - destruct HP as (Hs & Hz & Hf & HP).
      destruct HP as [->|[[-> HP]|[[-> HP]|[(-> & HP & Hx)|[(-> & Hx & Hg)|(-> & Hx & Hg)]]]]]; cbn.
      + assert (o <> []) by (intros E; specialize (Hz E); lia).
        eexists _, _; split; [reflexivity|]. cbn. repeat split; auto. right.
        repeat split; auto; try apply Hf; try lia; try (intros; contradiction).
        right. left. split; [reflexivity|]. destruct o; [congruence|reflexivity].
      + eexists _, _; split; [reflexivity|]. cbn. repeat split; auto. right.
        repeat split; auto; try apply Hf; try lia.
      + eexists _, _; split; [reflexivity|]. cbn. repeat split; auto. right.
        repeat split; auto; try apply Hf; try lia.
      + destruct (filled_push (length o) sk lv) as (k' & E & Hg); [lia|assumption|].
        subst x a. assert (Ec : (match o with [] => lv | _ => 1 end) =
                         (match length o with O => lv | _ => 1 end)) by (destruct o; reflexivity).
        rewrite Ec, E. cbn. eexists _, _; split; [reflexivity|]. cbn. repeat split; auto. right.
        pose proof (filled_le (S (length o)) (length o) k' lv ltac:(lia) Hg) as Hl.
        repeat split; auto; try apply Hl; try lia.
        do 4 right. left. auto.
      + eexists _, _; split; [reflexivity|]. cbn. repeat split; auto. right.
        repeat split; auto; try apply Hf; try lia.
        do 5 right. repeat split; auto; try apply Hg; lia.
      + eexists _, _; split; [reflexivity|]. cbn. repeat split; auto. right.
        repeat split; auto; try apply Hg; try lia. discriminate.
    - destruct HP as (Hz & HP).
      assert (0 < length o)%nat by (destruct o; [congruence|cbn; lia]).
      destruct HP as [(-> & Hs & Hf)|[(-> & Hs & Hx & Hf)|[(-> & Hs & Hx & Hf)|[(-> & Hs & Hx & Hf)|(-> & Hs & Hf & Ha)]]]]; cbn.
      + eexists _, _; split; [reflexivity|]. cbn. repeat split; auto. right.
        repeat split; auto. right. left. auto.
      + destruct x as [|x]; [lia|]. cbn.
        eexists _, _; split; [reflexivity|]. cbn. repeat split; auto. right.
        repeat split; auto. do 2 right. left. repeat split; auto; try apply Hf; lia.
      + eexists _, _; split; [reflexivity|]. cbn. repeat split; auto. right.
        repeat split; auto. do 3 right. left. auto.
      + subst x. destruct Hf as [Hf1 Hf2]. unfold rd.
        rewrite (Hf2 (length o - 1)%nat) by lia. cbn.
        eexists _, _; split; [reflexivity|]. cbn. repeat split; auto. right.
        repeat split; auto. do 4 right. repeat split; auto.
        destruct (length o) as [|[|q]] eqn:El; cbn; try reflexivity. lia.
      + destruct o as [|k o]; [congruence|]. cbn in *. rewrite Nat.sub_0_r in Hs.
        eexists _, _; split; [reflexivity|]. cbn. repeat split; auto.
        destruct o as [|k2 o]; cbn in *.
        * left. repeat split; auto; try lia. apply Hf.
        * right. repeat split; try tauto; try lia; try discriminate.
          { apply Hf. }
          { intros i Hi. apply Hf. lia. }
  Qed.

  Lemma s_hold_in s f : s_hold s f -> ~ outside f.
  Proof.
    intros (_ & H) (Ho & k & E). cbn in H. rewrite E in H. destruct H; contradiction.
  Qed.

  Lemma s08_safe xs m0 main hs :
    sources_ok 1 8 xs -> (depth main <= 8)%nat ->
    exists c, crun s08 xs (conf0 s08 m0 main) hs = Ok c /\ safe s08 xs lvl c.
  Proof.
    intros Hxs Hd.
    apply (slock_safe s08 1 8 xs eq_refl Hxs s_pre s_hold s_free s_pre_step s_hold_step).
    - intros f (_ & H & _). exact H.
    - exact s_hold_in.
    - intros s v H. exact H.
    - intros s v f H. exact H.
    - intros x m Hx. destruct (Hxs x Hx) as (_ & _ & H). repeat split; cbn; auto.
    - left. unfold s_free; cbn. repeat split; auto; try discriminate.
      constructor; [|constructor]. repeat split; cbn; auto.
  Qed.
End S08.

(** * ColdFire V1: a counter raised before the mask *)
Section Cf.
  Context (L m0 : N) (cap : nat) (Hcap : N.of_nat cap < 65534) (HL : L <= 7) (Hm0 : m0 <= 7).

  (** What the activity has added to the counter. *)
  Definition part (f : frame) : N :=
    match ph f with
    | Run _ => nopn f
    | Entering pc _ _ => if (3 <=? pc)%nat then nopn f + 1 else nopn f
    | Exiting pc => if (4 <=? pc)%nat then nopn f - 1 else nopn f
    end.

  (** An activity, given what those below it have added ([c0]). *)
  Definition fok (c0 : N) (f : frame) : Prop :=
    dok cap f /\
    match ph f with
    | Run _ => True
    | Entering pc _ _ =>
        pc = 0%nat \/
        pc = 1%nat /\ ra (lo f) = c0 + nopn f \/
        pc = 2%nat /\ ra (lo f) = c0 + nopn f + 1 \/
        pc = 3%nat /\ ra (lo f) = c0 + nopn f + 1 \/
        (c0 = 0 /\ opn f = [] /\
         (pc = 4%nat \/ pc = 5%nat /\ ra (lo f) = lvl f \/ pc = 6%nat \/
          pc = 7%nat /\ ra (lo f) = 7))
    | Exiting pc =>
        opn f <> [] /\
        (pc = 0%nat \/ pc = 1%nat \/
         pc = 2%nat /\ ra (lo f) = c0 + nopn f \/
         pc = 3%nat /\ ra (lo f) = c0 + nopn f - 1 \/
         (c0 = 0 /\ length (opn f) = 1%nat /\
          (pc = 4%nat \/ pc = 5%nat /\ ra (lo f) = lvl f)))
    end.

  Definition em (c0 : N) (f : frame) : N :=
    match opn f with [] => lvl f | _ => if c0 =? 0 then 7 else lvl f end.

  (** It counts on the saved status register. *)
  Definition needs (c0 : N) (f : frame) : Prop :=
    c0 = 0 /\ (opn f <> [] \/ exists pc b k, ph f = Entering pc b k /\ (6 <= pc)%nat).

  Lemma u16_dec n : 0 < n -> n < 65536 -> u16 (n + 65535) = n - 1.
  Proof.
    intros H H2. unfold u16. replace (n + 65535) with ((n - 1) + 1 * 65536) by lia.
    rewrite N.mod_add by lia. apply N.mod_small. lia.
  Qed.

  Lemma fok_step s f c0 : c0 <= 1 -> fok c0 f -> ~ fin f ->
    cnt s = c0 + part f -> mask s = em c0 f -> (needs c0 f -> srm s = lvl f) ->
    exists s' f', fstep cfv1 s f = Ok (s', f') /\ lvl f' = lvl f /\ sav f' = sav f /\
      fok c0 f' /\ cnt s' = c0 + part f' /\ mask s' = em c0 f' /\
      (needs c0 f' -> srm s' = lvl f) /\ (c0 <> 0 -> srm s' = srm s).
  Proof.
    destruct s as [mk cn sr sk s0], f as [lv sv [a x ss] P o].
    unfold fok, em, needs, part, dok, fin, fstep, nopn. cbn [mask cnt srm ph opn lo lvl sav ra].
    intros Hc0 ((D1 & D2) & HP) Hn Hc Hm Hs.
    destruct P as [[|k|b k]|pc b k|pc]; cbn in *.
    - assert (o <> []) by (intros ->; auto).
      eexists _, _; split; [reflexivity|]. cbn. repeat split; auto; try lia.
      intros [E _]. apply Hs. auto.
    - eexists _, _; split; [reflexivity|]. cbn. repeat split; auto; try lia.
      intros [E [?|(? & ? & ? & ? & _)]]; [|discriminate]. apply Hs. auto.
    - eexists _, _; split; [reflexivity|]. cbn. repeat split; auto; try lia.
      intros [E [?|(? & ? & ? & [= <- <- <-] & ?)]]; [|lia]. apply Hs. auto.
    - assert (Hs' : c0 = 0 -> o <> [] -> sr = lv) by (intros; apply Hs; auto).
      destruct HP as [->|[(-> & HP)|[(-> & HP)|[(-> & HP)|(-> & -> & HP)]]]]; cbn in *.
      + eexists _, _; split; [reflexivity|]. cbn. repeat split; auto; try lia.
        intros [E [?|(? & ? & ? & [= <- <- <-] & ?)]]; [|lia]. auto.
      + eexists _, _; split; [reflexivity|]. cbn. repeat split; auto; try lia.
        { right; right; left. split; [reflexivity|]. rewrite HP, u16_small by lia. lia. }
        intros [E [?|(? & ? & ? & [= <- <- <-] & ?)]]; [|lia]. auto.
      + eexists _, _; split; [reflexivity|]. cbn. repeat split; auto; try lia.
        intros [E [?|(? & ? & ? & [= <- <- <-] & ?)]]; [|lia]. auto.
      + destruct (N.ltb_spec 1 a) as [C|C]; cbn.
        * eexists _, _; split; [reflexivity|]. cbn. repeat split; auto; try lia.
          { destruct o as [|k2 o]; [|assumption]. destruct (N.eqb_spec c0 0); [cbn in *; lia|assumption]. }
          intros [E _]. apply Hs'; [assumption|]. intros ->. cbn in *; lia.
        * assert (c0 = 0) by lia. assert (o = []) by (destruct o; [reflexivity|cbn in *; lia]).
          subst. eexists _, _; split; [reflexivity|]. cbn. repeat split; auto; try lia.
          { do 4 right. auto 8. }
          intros [E [?|(? & ? & ? & [= <- <- <-] & ?)]]; [congruence|lia].
      + destruct HP as [->|[(-> & HP)|[->|(-> & HP)]]]; cbn in *.
        * eexists _, _; split; [reflexivity|]. cbn. repeat split; auto; try lia.
          { do 4 right. auto 8. }
          intros [E [?|(? & ? & ? & [= <- <- <-] & ?)]]; [congruence|lia].
        * eexists _, _; split; [reflexivity|]. cbn. repeat split; auto; try lia.
          { do 4 right. auto 8. }
        * eexists _, _; split; [reflexivity|]. cbn. repeat split; auto; try lia.
          { do 4 right. auto 8. }
          intros _. apply Hs. split; [reflexivity|]. right. eexists _, _, _; split; [reflexivity|lia].
        * eexists _, _; split; [reflexivity|]. cbn. repeat split; auto; try lia.
          intros _. apply Hs. split; [reflexivity|]. right. eexists _, _, _; split; [reflexivity|lia].
    - destruct HP as (Hz & HP).
      assert (0 < length o)%nat by (destruct o; [congruence|cbn; lia]).
      assert (Hs' : c0 = 0 -> sr = lv) by (intros; apply Hs; auto).
      destruct HP as [->|[->|[(-> & HP)|[(-> & HP)|(-> & Hl & HP)]]]]; cbn in *.
      + destruct (N.eqb_spec cn 0); [lia|].
        eexists _, _; split; [reflexivity|]. cbn. repeat split; auto. tauto.
      + eexists _, _; split; [reflexivity|]. cbn. repeat split; auto. tauto.
      + eexists _, _; split; [reflexivity|]. cbn. repeat split; auto; [|tauto].
        do 3 right. left. split; [reflexivity|]. rewrite HP, u16_dec by lia. reflexivity.
      + destruct (N.eqb_spec a 0) as [Ea|Ea]; cbn.
        * eexists _, _; split; [reflexivity|]. cbn. repeat split; auto; try lia.
        * destruct o as [|k o]; [congruence|]. cbn in *.
          eexists _, _; split; [reflexivity|]. cbn. repeat split; try tauto; try lia.
          { destruct o; [|assumption]. destruct (N.eqb_spec c0 0); [cbn in *; lia|assumption]. }
      + destruct o as [|k [|k2 o]]; cbn in *; try lia.
        destruct HP as [->|(-> & HP)]; cbn in *.
        * eexists _, _; split; [reflexivity|]. cbn. repeat split; auto; try lia.
        * eexists _, _; split; [reflexivity|]. cbn. repeat split; try tauto; try lia.
  Qed.

  Definition idle (f : frame) : Prop :=
    opn f = [] /\ exists k, ph f = Run k /\ has_sect k = false.

  Lemma idle_step p s f : idle f -> ~ fin f ->
    exists f', fstep p s f = Ok (s, f') /\ idle f' /\ lvl f' = lvl f /\ sav f' = sav f.
  Proof.
    intros (H2 & k & H3 & H4) Hn. unfold fstep. rewrite H3.
    destruct k as [|k|b k]; [exfalso; apply Hn; split; assumption| |discriminate].
    eexists; split; [reflexivity|]. cbn. repeat split; auto. exists k. auto.
  Qed.

  Definition above (f : frame) : Prop := L < lvl f.

  (** The task is the only one that may be in a section, or one handler of
      level [L] is, over a task that is not. *)
  Definition cinv (c : conf) : Prop :=
    (exists up b, fs c = up ++ [b] /\ Forall idle up /\ fok 0 b /\
       (opn b <> [] -> Forall above up) /\ cnt (cs c) = part b /\
       (needs 0 b -> srm (cs c) = lvl b) /\ lvl b <= 7 /\
       mch (mask (cs c)) (fs c) (map lvl up ++ [em 0 b])) \/
    (exists up i mid b, fs c = up ++ i :: mid ++ [b] /\ Forall idle up /\ Forall above up /\
       Forall idle mid /\ fok 0 b /\ opn b = [] /\ fok (part b) i /\ lvl i = L /\
       cnt (cs c) = part b + part i /\
       (needs 0 b -> srm (cs c) = lvl b) /\ (needs (part b) i -> srm (cs c) = lvl i) /\
       lvl b <= 7 /\
       mch (mask (cs c)) (fs c) (map lvl up ++ em (part b) i :: map lvl mid ++ [em 0 b])).

  Lemma part_le b : fok 0 b -> opn b = [] -> part b <= 1.
  Proof.
    intros [_ H] E. unfold part, nopn. rewrite E. change (length (@nil code)) with 0%nat.
    destruct (ph b) as [|pc|pc]; [lia| |]; [destruct (3 <=? pc)%nat|destruct (4 <=? pc)%nat]; lia.
  Qed.

  Lemma part_needs b : fok 0 b -> opn b = [] -> needs 0 b -> part b = 1.
  Proof.
    intros [_ H] E [_ [N|(pc & b' & k & N & P)]]; [congruence|]. unfold part, nopn. rewrite E, N.
    destruct (3 <=? pc)%nat eqn:C; [reflexivity|]. apply Nat.leb_gt in C. lia.
  Qed.

  Lemma fin_part f c0 : fin f -> part f = 0 /\ em c0 f = lvl f.
  Proof. intros [H1 H2]. unfold part, em, nopn. rewrite H1, H2. auto. Qed.

  Lemma fstep_id f : fin f -> idle f.
  Proof. intros [H1 H2]. split; [assumption|]. exists Nil. auto. Qed.

  Lemma cinv_go c : cinv c -> exists c', go cfv1 c = Ok c' /\ cinv c'.
  Proof.
    destruct c as [s l]. intros [(up & b & E & Hu & Hb & Ha & Hc & Hs & Hl & Hm)|
      (up & i & mid & b & E & Hu & Ha & Hmid & Hb & Ho & Hi & Hli & Hc & Hs & Hsi & Hl & Hm)];
      cbn [cs fs] in *; subst l.
    - destruct up as [|u up]; cbn [app map] in *; destruct Hm as [Hm1 Hm2].
      + destruct (fin_dec b) as [F|F].
        * rewrite (go_fin _ _ _ _ F). eexists; split; [reflexivity|]. left. exists [], b. cbn.
          repeat split; auto; try apply Hb.
        * rewrite (go_fstep _ _ _ _ F).
          destruct (fok_step s b 0) as (s' & f' & E & E1 & E2 & G1 & G2 & G3 & G4 & _); auto; try lia.
          rewrite E; cbn [bind]. eexists; split; [reflexivity|]. left. exists [], f'. cbn.
          rewrite E1. repeat split; auto; try apply G1.
      + pose proof (Forall_inv Hu) as H1. pose proof (Forall_inv_tail Hu) as H2.
        destruct (fin_dec u) as [F|F].
        * rewrite (go_fin _ _ _ _ F). exists (mkCf (set_mask s (sav u)) (up ++ [b])).
          split; [destruct up; reflexivity|]. left. exists up, b. cbn.
          repeat split; auto; try apply Hb. intros N. exact (Forall_inv_tail (Ha N)).
        * rewrite (go_fstep _ _ _ _ F).
          destruct (idle_step cfv1 s u H1 F) as (u' & E & D & D1 & D2). rewrite E; cbn [bind].
          eexists; split; [reflexivity|]. left. exists (u' :: up), b. cbn. rewrite D1, D2.
          repeat split; auto; try apply Hb. intros N. specialize (Ha N).
          constructor; [|exact (Forall_inv_tail Ha)]. unfold above. rewrite D1.
          exact (Forall_inv Ha).
    - pose proof (part_le b Hb Ho) as Hp.
      destruct up as [|u up]; cbn [app map] in *; destruct Hm as [Hm1 Hm2].
      + destruct (fin_dec i) as [F|F].
        * rewrite (go_fin _ _ _ _ F). exists (mkCf (set_mask s (sav i)) (mid ++ [b])).
          split; [destruct mid; reflexivity|]. left. exists mid, b. cbn.
          destruct (fin_part i 0 F) as [Fp _]. rewrite Fp in Hc.
          repeat split; auto; try apply Hb; [intros; contradiction|lia].
        * rewrite (go_fstep _ _ _ _ F).
          destruct (fok_step s i (part b)) as (s' & f' & E & E1 & E2 & G1 & G2 & G3 & G4 & G5); auto.
          rewrite E; cbn [bind]. eexists; split; [reflexivity|]. right. exists [], f', mid, b. cbn.
          rewrite E1, E2. repeat split; auto; try apply Hb; try apply G1.
          intros N. rewrite G5; [auto|]. rewrite (part_needs b Hb Ho N). discriminate.
      + pose proof (Forall_inv Hu) as H1. pose proof (Forall_inv_tail Hu) as H2.
        destruct (fin_dec u) as [F|F].
        * rewrite (go_fin _ _ _ _ F). exists (mkCf (set_mask s (sav u)) (up ++ i :: mid ++ [b])).
          split; [destruct up; reflexivity|]. right. exists up, i, mid, b. cbn.
          repeat split; auto; try apply Hb; try apply Hi. exact (Forall_inv_tail Ha).
        * rewrite (go_fstep _ _ _ _ F).
          destruct (idle_step cfv1 s u H1 F) as (u' & E & D & D1 & D2). rewrite E; cbn [bind].
          eexists; split; [reflexivity|]. right. exists (u' :: up), i, mid, b. cbn. rewrite D1, D2.
          repeat split; auto; try apply Hb; try apply Hi.
          constructor; [|exact (Forall_inv_tail Ha)]. unfold above. rewrite D1.
          exact (Forall_inv Ha).
  Qed.

  Context (xs : list source).
  Context (Hxs : forall x, In x xs ->
    (has_sect (snd x) = true -> fst x = L) /\ (depth (snd x) <= cap)%nat).

  Lemma em_full b : opn b <> [] -> em 0 b = 7.
  Proof. unfold em. destruct (opn b); [congruence|reflexivity]. Qed.

  Lemma em_ge c0 i : lvl i = L -> L <= em c0 i.
  Proof. unfold em. intros E. destruct (opn i); [lia|]. destruct (c0 =? 0); lia. Qed.

  Lemma cinv_irq c x : cinv c -> In x xs -> cinv (irq cfv1 c x).
  Proof.
    intros H Hx. unfold irq. destruct (accepts cfv1 c (fst x)) eqn:E; [|assumption].
    cbn [p_stacked cfv1]. unfold accepts in E. apply andb_true_iff in E as [E _].
    apply N.ltb_lt in E. destruct (Hxs x Hx) as [X1 X2]. destruct c as [s l]; cbn [cs fs] in *.
    set (g := mkF (fst x) (mask s) loc0 (Run (snd x)) []).
    destruct H as [(up & b & El & Hu & Hb & Ha & Hc & Hs & Hl & Hm)|
      (up & i & mid & b & El & Hu & Ha & Hmid & Hb & Ho & Hi & Hli & Hc & Hs & Hsi & Hl & Hm)];
      cbn [cs fs] in *; subst l.
    - destruct (has_sect (snd x)) eqn:Ex.
      + specialize (X1 eq_refl).
        assert (Hn : opn b = []).
        { destruct (opn b) eqn:Eo; [reflexivity|]. exfalso.
          assert (N : opn b <> []) by congruence. rewrite <- Eo in *. specialize (Ha N).
          destruct up as [|u up]; cbn in Hm; destruct Hm as [Hm1 _].
          - rewrite (em_full b N) in Hm1. lia.
          - apply Forall_inv in Ha. unfold above in Ha. lia. }
        right. exists [], g, up, b. cbn. repeat split; auto; try apply Hb; try lia.
        * unfold nopn; cbn. lia.
        * intros [_ [N|(? & ? & ? & ? & _)]]; [contradiction|discriminate].
      + left. exists (g :: up), b. cbn. repeat split; auto; try apply Hb.
        * constructor; [|assumption]. split; [reflexivity|]. exists (snd x). auto.
        * intros N. specialize (Ha N). constructor; [|assumption]. unfold above; cbn.
          destruct up as [|u up]; cbn in Hm; destruct Hm as [Hm1 _].
          { rewrite (em_full b N) in Hm1. lia. }
          { apply Forall_inv in Ha. unfold above in Ha. lia. }
    - assert (Hk : L < fst x).
      { destruct up as [|u up]; cbn in Hm; destruct Hm as [Hm1 _].
        - pose proof (em_ge (part b) i Hli). lia.
        - apply Forall_inv in Ha. unfold above in Ha. lia. }
      right. exists (g :: up), i, mid, b. cbn. repeat split; auto; try apply Hb; try apply Hi.
      constructor; [|assumption]. split; [reflexivity|]. exists (snd x). split; [reflexivity|].
      destruct (has_sect (snd x)); [|reflexivity]. specialize (X1 eq_refl). lia.
  Qed.

  Lemma idle_in l y : Forall idle l -> In y l -> ~ inside y.
  Proof. intros H Hy I. rewrite Forall_forall in H. exact (I (proj1 (H y Hy))). Qed.

  Lemma one_place (l1 l2 : list frame) z : 
    (forall y, In y l1 -> ~ inside y) -> (forall y, In y l2 -> ~ inside y) ->
    forall n y, nth_error (l1 ++ z :: l2) n = Some y -> inside y -> n = length l1.
  Proof.
    intros H1 H2 n y Hn Iy.
    destruct (Nat.lt_trichotomy n (length l1)) as [C|[C|C]]; [|assumption|].
    - rewrite nth_error_app1 in Hn by lia. exfalso. exact (H1 y (nth_error_In _ _ Hn) Iy).
    - rewrite nth_error_app2 in Hn by lia.
      destruct (n - length l1)%nat as [|q] eqn:Eq; [lia|]. cbn in Hn. exfalso.
      exact (H2 y (nth_error_In _ _ Hn) Iy).
  Qed.

  Lemma cinv_safe c : cinv c -> safe cfv1 xs lvl c.
  Proof.
    intros H. destruct c as [s l].
    destruct H as [(up & b & El & Hu & Hb & Ha & Hc & Hs & Hl & Hm)|
      (up & i & mid & b & El & Hu & Ha & Hmid & Hb & Ho & Hi & Hli & Hc & Hs & Hsi & Hl & Hm)];
      cbn [cs fs] in *; subst l; split; cbn [cs fs].
    - assert (P := one_place up [] b (fun y => idle_in up y Hu) (fun y F => match F with end)).
      intros i j f g Ei If Ej Ig. rewrite (P i f Ei If), (P j g Ej Ig). reflexivity.
    - intros f x Hf If Hx E. unfold accepts in E. apply andb_true_iff in E as [E _].
      apply N.ltb_lt in E. cbn [cs] in E. destruct (Hxs x Hx) as [X1 _].
      destruct (has_sect (snd x)); [|reflexivity]. specialize (X1 eq_refl). exfalso.
      assert (N : opn b <> []).
      { apply in_app_iff in Hf as [Hf|[<-|[]]]; [exfalso; exact (idle_in up f Hu Hf If)|exact If]. }
      specialize (Ha N). destruct up as [|u up]; cbn in Hm; destruct Hm as [Hm1 _].
      + rewrite (em_full b N) in Hm1. lia.
      + apply Forall_inv in Ha. unfold above in Ha. lia.
    - intros f r l E [Ho _]. unfold accepts. cbn [cs p_stacked cfv1]. rewrite orb_true_l, andb_true_r, N.ltb_lt.
      destruct up as [|u up]; cbn in E, Hm; injection E as -> <-; destruct Hm as [Hm1 _]; rewrite Hm1.
      + unfold em. rewrite Ho. reflexivity.
      + reflexivity.
    - assert (Q : forall y, In y (mid ++ [b]) -> ~ inside y).
      { intros y Hy Iy. apply in_app_iff in Hy as [Hy|[<-|[]]]; [exact (idle_in mid y Hmid Hy Iy)|exact (Iy Ho)]. }
      intros n j f g Ei If Ej Ig.
      rewrite (one_place up _ i (fun y => idle_in up y Hu) Q n f Ei If),
              (one_place up _ i (fun y => idle_in up y Hu) Q j g Ej Ig).
      reflexivity.
    - intros f x Hf If Hx E. unfold accepts in E. apply andb_true_iff in E as [E _].
      apply N.ltb_lt in E. cbn [cs] in E. destruct (Hxs x Hx) as [X1 _].
      destruct (has_sect (snd x)); [|reflexivity]. specialize (X1 eq_refl). exfalso.
      destruct up as [|u up]; cbn in Hm; destruct Hm as [Hm1 _].
      + pose proof (em_ge (part b) i Hli). lia.
      + apply Forall_inv in Ha. unfold above in Ha. lia.
    - intros f r l E [Hf _]. unfold accepts. cbn [cs p_stacked cfv1]. rewrite orb_true_l, andb_true_r, N.ltb_lt.
      destruct up as [|u up]; cbn in E, Hm; injection E as -> <-; destruct Hm as [Hm1 _]; rewrite Hm1.
      + unfold em. rewrite Hf. reflexivity.
      + reflexivity.
  Qed.

  Lemma cf_safe main hs : (depth main <= cap)%nat ->
    exists c, crun cfv1 xs (conf0 cfv1 m0 main) hs = Ok c /\ safe cfv1 xs lvl c.
  Proof.
    intros Hd. destruct (crun_inv cfv1 xs cinv cinv_go cinv_irq hs (conf0 cfv1 m0 main)) as (c & E & H).
    - left. exists [], (mkF m0 0 loc0 (Run main) []). cbn. repeat split; auto; try lia.
      intros [_ [N|(? & ? & ? & ? & _)]]; [contradiction|discriminate].
    - exists c. split; [assumption|]. apply cinv_safe; assumption.
  Qed.
End Cf.
