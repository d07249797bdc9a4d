(** Proofs about software timers. *)
From Verif Require Import Base L_Base M_Tmr S_Tmr.
Local Open Scope N_scope.

(** ** The linked list *)
Lemma path_ext h h' l : forall p,
  path h p l -> (forall x, In x l -> tm_next (h' x) = tm_next (h x)) -> path h' p l.
Proof.
  induction l as [|x l IH]; simpl; intros p H He; auto.
  destruct H as [-> H]. split; auto. rewrite He by auto. apply IH; auto.
Qed.

Definition hdo (l : list N) : option N := match l with [] => None | x :: _ => Some x end.
Fixpoint lasto (l : list N) : option N :=
  match l with [] => None | [x] => Some x | _ :: l => lasto l end.

Lemma lasto_snoc l x : lasto (l ++ [x]) = Some x.
Proof. induction l as [|a [|b l] IH]; simpl in *; auto. Qed.

Lemma lasto_cons a b l : lasto (a :: b :: l) = lasto (b :: l).
Proof. reflexivity. Qed.
Lemma lasto_some a l : exists z, lasto (a :: l) = Some z.
Proof. revert a; induction l as [|b l IH]; intros a; [exists a; reflexivity|]. apply (IH b). Qed.

Lemma path_hdo h p l : path h p l -> p = hdo l.
Proof. destruct l; simpl; tauto. Qed.

Definition after (h : N -> tmr) (p : option N) (l : list N) : option N :=
  match lasto l with None => p | Some x => tm_next (h x) end.

Lemma path_app h l1 : forall p l2,
  path h p (l1 ++ l2) -> path h (after h p l1) l2.
Proof.
  induction l1 as [|a l1 IH]; intros p l2 H; simpl in *; auto.
  destruct H as [-> H]. apply IH in H. unfold after in *.
  destruct l1 as [|b l1]; auto. rewrite lasto_cons. destruct (lasto_some b l1) as [z E].
  rewrite E in *. exact H.
Qed.

(** Replacing the part of the list after [l1]. *)
Lemma path_replace h h' l1 : forall p l2 l2',
  path h p (l1 ++ l2) -> NoDup l1 ->
  (forall x, In x l1 -> lasto l1 <> Some x -> tm_next (h' x) = tm_next (h x)) ->
  (forall x, lasto l1 = Some x -> path h' (tm_next (h' x)) l2') ->
  (l1 = [] -> path h' p l2') ->
  path h' p (l1 ++ l2').
Proof.
  induction l1 as [|a l1 IH]; intros p l2 l2' H Hnd He Hl Hn; simpl in *; auto.
  destruct H as [-> H]. split; auto. inversion Hnd; subst.
  destruct l1 as [|b l1].
  - simpl. apply Hl; auto.
  - assert (Ha : tm_next (h' a) = tm_next (h a)).
    { apply He; auto. intros Hx. apply H2.
      clear - Hx. revert b Hx. induction l1 as [|c l1 IH]; simpl; intros b Hx; [left; congruence|].
      right. apply (IH c). exact Hx. }
    rewrite Ha. apply IH with (l2 := l2); auto. discriminate.
Qed.

Lemma lasto_in l x : lasto l = Some x -> In x l.
Proof.
  induction l as [|a [|b l] IH]; simpl in *; intros H; [discriminate | left; congruence | auto].
Qed.

Lemma path_len h : forall l1 p l2, path h p l1 -> path h p l2 -> l1 = l2.
Proof.
  induction l1 as [|x l1 IH]; intros p [|y l2]; simpl; intros H1 H2; auto.
  - destruct H2; congruence.
  - destruct H1; congruence.
  - destruct H1 as [-> H1], H2 as [E H2]. injection E as <-. f_equal. eauto.
Qed.

(** Removing the element [x] that follows [pre]. *)
Lemma rem_from_list_spec s pre x post :
  path (ts_heap s) (ts_head s) (pre ++ x :: post) -> NoDup (pre ++ x :: post) ->
  exists s', rem_from_list s x (lasto pre) = Ok s' /\
    path (ts_heap s') (ts_head s') (pre ++ post) /\
    tm_next (ts_heap s' x) = tm_next (ts_heap s x) /\
    forall y, tm_ntick (ts_heap s' y) = tm_ntick (ts_heap s y) /\
              tm_period (ts_heap s' y) = tm_period (ts_heap s y) /\
              tm_used (ts_heap s' y) = (if y =? x then false else tm_used (ts_heap s y)).
Proof.
  intros Hp Hnd.
  assert (Hnx : ~ In x pre /\ ~ In x post).
  { apply NoDup_remove_2 in Hnd. rewrite in_app_iff in Hnd. tauto. }
  assert (Hpre : NoDup pre).
  { clear - Hnd. induction pre; constructor; inversion Hnd; subst; auto.
    intros Hi; apply H1; apply in_app_iff; auto. }
  pose proof Hp as Hp0. apply path_app in Hp0. unfold after in Hp0. simpl in Hp0.
  destruct Hp0 as [Hq Hpost].
  unfold rem_from_list. destruct (lasto pre) as [z|] eqn:Ez.
  - assert (Hzx : z <> x) by (intros ->; apply lasto_in in Ez; tauto).
    assert (Hhd : ptr_eqb (ts_head s) x = false).
    { apply path_hdo in Hp. destruct pre as [|a pre]; [discriminate|]. simpl in Hp. rewrite Hp.
      simpl. destruct (N.eqb_spec a x); [subst; destruct Hnx as [Hnx _]; exfalso; apply Hnx; now left | reflexivity]. }
    rewrite Hhd. cbn [bind]. eexists. split; [reflexivity|].
    set (s1 := set_used (set_next s z (tm_next (ts_heap s x))) x false).
    assert (Hnext : forall y, tm_next (ts_heap s1 y) =
              if y =? z then tm_next (ts_heap s x) else tm_next (ts_heap s y)).
    { intros y. unfold s1. simpl.
      destruct (N.eqb_spec y x) as [E1|E1], (N.eqb_spec x z), (N.eqb_spec y z); simpl; congruence. }
    split; [|split].
    + change (ts_head s1) with (ts_head s). apply path_replace with (h := ts_heap s) (l2 := x :: post); auto.
      * intros y Hy Hl. rewrite Hnext. destruct (N.eqb_spec y z); [congruence|reflexivity].
      * intros y Hy. rewrite Hnext. assert (y = z) by congruence. subst.
        rewrite N.eqb_refl. eapply path_ext; [exact Hpost|]. intros y Hy2. rewrite Hnext.
        destruct (N.eqb_spec y z) as [->|]; auto. exfalso.
        apply lasto_in in Ez. clear - Hnd Ez Hy2.
        induction pre as [|a pre IH]; simpl in *; [easy|]. inversion Hnd; subst.
        destruct Ez as [->|Ez]; [apply H1; apply in_app_iff; right; now right|auto].
      * intros ->. discriminate.
    + rewrite Hnext. destruct (N.eqb_spec x z); [congruence|reflexivity].
    + intros y. unfold s1. simpl.
      destruct (N.eqb_spec y x) as [E1|E1], (N.eqb_spec x z), (N.eqb_spec y z); simpl; subst; auto; try congruence.
  - assert (pre = []).
    { destruct pre as [|a pre]; auto. destruct (lasto_some a pre) as [z E]. congruence. }
    subst pre. simpl in *. rename Hq into Hhd. rewrite Hhd. simpl. rewrite N.eqb_refl. cbn [bind].
    eexists. split; [reflexivity|]. simpl. rewrite N.eqb_refl. simpl. split; [|split].
    + eapply path_ext; [exact Hpost|]. intros y Hy. simpl. destruct (N.eqb_spec y x); subst; reflexivity.
    + reflexivity.
    + intros y. destruct (N.eqb_spec y x); subst; auto.
Qed.

Lemma tm_search_spec s t : forall post pre fuel,
  path (ts_heap s) (ts_head s) (pre ++ post) -> (length post <= fuel)%nat ->
  (~ In t post /\ exists q, tm_search fuel s t (lasto pre) (hdo post) = Ok (q, None)) \/
  (exists post1 post2, post = post1 ++ t :: post2 /\
     tm_search fuel s t (lasto pre) (hdo post) = Ok (lasto (pre ++ post1), Some t)).
Proof.
  induction post as [|x post IH]; intros pre fuel Hp Hf.
  - left. split; [easy|]. exists (lasto pre). destruct fuel; reflexivity.
  - pose proof Hp as Hp0. apply path_app in Hp0. unfold after in Hp0. simpl in Hp0.
    destruct Hp0 as [_ Hpost]. destruct fuel as [|fuel]; [simpl in Hf; lia|].
    cbn [tm_search hdo].
    assert (E1 : tm_next (ts_heap s x) = hdo post) by (eapply path_hdo; eauto).
    destruct (N.eqb_spec x t) as [->|Hne].
    + right. exists [], post. split; auto. now rewrite app_nil_r.
    + rewrite E1. rewrite <- (lasto_snoc pre x).
      destruct (IH (pre ++ [x]) fuel) as [(Hn & q & E)|(p1 & p2 & Ep & E)].
      * rewrite <- app_assoc. exact Hp.
      * simpl in Hf. lia.
      * left. split; [intros [|]; auto|]. exists q. exact E.
      * right. exists (x :: p1), p2. split; [simpl; congruence|].
        rewrite E. rewrite <- app_assoc. reflexivity.
Qed.

Lemma search_and_remove_spec s t l fuel :
  path (ts_heap s) (ts_head s) l -> NoDup l -> (length l <= fuel)%nat ->
  exists s', search_and_remove fuel s t = Ok s' /\
    path (ts_heap s') (ts_head s') (filter (fun x => negb (x =? t)) l) /\
    forall y, tm_ntick (ts_heap s' y) = tm_ntick (ts_heap s y) /\
              tm_period (ts_heap s' y) = tm_period (ts_heap s y) /\
              tm_used (ts_heap s' y) =
                (if y =? t then if in_dec N.eq_dec t l then false else tm_used (ts_heap s t)
                 else tm_used (ts_heap s y)).
Proof.
  intros Hp Hnd Hf. unfold search_and_remove.
  assert (Hh : ts_head s = hdo l) by (eapply path_hdo; eauto).
  destruct (tm_search_spec s t l [] fuel Hp Hf) as [(Hn & q & E)|(p1 & p2 & El & E)];
    simpl in E; rewrite Hh, E; cbn [bind].
  - exists s. split; [reflexivity|]. split.
    + assert (Hfl : filter (fun x => negb (x =? t)) l = l); [|now rewrite Hfl].
      clear - Hn. induction l as [|a l IH]; simpl; auto.
      destruct (N.eqb_spec a t); [subst; exfalso; apply Hn; now left|]. simpl. f_equal.
      apply IH. intros Hi; apply Hn; now right.
    + intros y. repeat split. destruct (N.eqb_spec y t); subst; auto.
      destruct (in_dec N.eq_dec t l); tauto.
  - subst l. simpl in *. destruct (rem_from_list_spec s p1 t p2 Hp Hnd) as (s' & Er & Hp' & _ & Hy).
    exists s'. split; [exact Er|]. split.
    + assert (Hfl : filter (fun x => negb (x =? t)) (p1 ++ t :: p2) = p1 ++ p2); [|now rewrite Hfl].
      apply NoDup_remove_2 in Hnd. rewrite in_app_iff in Hnd.
      assert (G : forall l, ~ In t l -> filter (fun x => negb (x =? t)) l = l).
      { clear. induction l as [|a l IH]; simpl; intros Hn; auto.
        destruct (N.eqb_spec a t); [subst; exfalso; apply Hn; now left|]. simpl. f_equal; auto. }
      rewrite filter_app. simpl. rewrite N.eqb_refl. simpl. rewrite !G; tauto.
    + intros y. destruct (Hy y) as (H1 & H2 & H3). repeat split; auto. rewrite H3.
      destruct (N.eqb_spec y t); subst; auto.
      destruct (in_dec N.eq_dec t (p1 ++ t :: p2)) as [|n]; auto.
      exfalso; apply n; apply in_app_iff; right; now left.
Qed.

(** ** A tick *)
Section Tmr.
Context (c : tmcfg) (hook : N -> tmst -> list N -> res (tmst * list N)).
Hypothesis Hhook : hook_ok c hook.

Definition rok (r : tmr) : Prop := 0 < tm_ntick r < tnt_mod c /\ tm_period r < tnt_mod c.

Definition tick_post (s s' : tmst) (pre post : list N) (P Q : N -> bool) : Prop :=
  path (ts_heap s') (ts_head s') (pre ++ filter Q post) /\
  (forall x, In x (pre ++ filter Q post) -> tm_used (ts_heap s' x) = true /\ rok (ts_heap s' x)) /\
  (forall x, In x post -> Q x = false ->
     tm_used (ts_heap s' x) = false /\ tm_ntick (ts_heap s' x) = 0) /\
  (forall x, ~ In x (pre ++ post) -> tm_used (ts_heap s' x) = tm_used (ts_heap s x) /\
     (tm_used (ts_heap s x) = false -> tm_ntick (ts_heap s' x) = tm_ntick (ts_heap s x))) /\
  (forall x, hook_spares x hook ->
     (In x post -> P x = (tm_ntick (ts_heap s x) =? 1) /\
        Q x = negb ((tm_ntick (ts_heap s x) =? 1) && (tm_period (ts_heap s x) =? 0)) /\
        tm_period (ts_heap s' x) = tm_period (ts_heap s x) /\
        tm_ntick (ts_heap s' x) = (if tm_ntick (ts_heap s x) =? 1 then tm_period (ts_heap s x)
                                   else tm_ntick (ts_heap s x) - 1)) /\
     (~ In x post -> tm_ntick (ts_heap s' x) = tm_ntick (ts_heap s x) /\
        tm_period (ts_heap s' x) = tm_period (ts_heap s x))).

Lemma filter_upd (P : N -> bool) x b l :
  ~ In x l -> filter (fun y => if y =? x then b else P y) l = filter P l.
Proof.
  induction l as [|a l IH]; simpl; intros Hn; auto.
  destruct (N.eqb_spec a x) as [->|]; [exfalso; apply Hn; now left|].
  rewrite IH by (intros Hi; apply Hn; now right). reflexivity.
Qed.

Lemma set_ntick_next s x n y : tm_next (ts_heap (set_ntick s x n) y) = tm_next (ts_heap s y).
Proof. simpl. destruct (N.eqb_spec y x); subst; reflexivity. Qed.
Lemma set_ntick_used s x n y : tm_used (ts_heap (set_ntick s x n) y) = tm_used (ts_heap s y).
Proof. simpl. destruct (N.eqb_spec y x); subst; reflexivity. Qed.
Lemma set_ntick_period s x n y : tm_period (ts_heap (set_ntick s x n) y) = tm_period (ts_heap s y).
Proof. simpl. destruct (N.eqb_spec y x); subst; reflexivity. Qed.
Lemma set_ntick_ntick s x n y :
  tm_ntick (ts_heap (set_ntick s x n) y) = if y =? x then n else tm_ntick (ts_heap s y).
Proof. simpl. destruct (N.eqb_spec y x); subst; reflexivity. Qed.

Lemma tm_loop_spec : forall post pre s w fuel,
  path (ts_heap s) (ts_head s) (pre ++ post) -> NoDup (pre ++ post) ->
  (forall x, In x (pre ++ post) -> tm_used (ts_heap s x) = true /\ rok (ts_heap s x)) ->
  (length post <= fuel)%nat ->
  exists s' P Q,
    tm_loop c hook tm_post fuel s w (lasto pre) (hdo post) = Ok (s', w ++ filter P post) /\
    tick_post s s' pre post P Q.
Proof.
  induction post as [|x post IH]; intros pre s w fuel Hp Hnd Hok Hf.
  - exists s, (fun _ => true), (fun _ => true). simpl. rewrite app_nil_r in *.
    split; [destruct fuel; now rewrite ?app_nil_r|].
    unfold tick_post. simpl. rewrite app_nil_r. repeat split; auto; try easy; apply Hok; auto.
  - destruct fuel as [|fuel]; [simpl in Hf; lia|]. simpl in Hf.
    destruct (Hok x) as [Hux [Hnx Hpx]]; [apply in_app_iff; right; now left|].
    assert (Hni : ~ In x pre /\ ~ In x post).
    { apply NoDup_remove_2 in Hnd. rewrite in_app_iff in Hnd. tauto. }
    destruct Hni as [Hnpre Hnpost].
    pose proof Hp as Hp0. apply path_app in Hp0. unfold after in Hp0. simpl in Hp0.
    destruct Hp0 as [_ Hpost].
    assert (E1 : tm_next (ts_heap s x) = hdo post) by (eapply path_hdo; eauto).
    assert (Hsn : pre ++ x :: post = (pre ++ [x]) ++ post) by (rewrite <- app_assoc; reflexivity).
    cbn [tm_loop hdo]. rewrite Hux.
    replace ((tm_ntick (ts_heap s x) + tnt_mod c - 1) mod tnt_mod c) with (tm_ntick (ts_heap s x) - 1).
    2:{ replace (tm_ntick (ts_heap s x) + tnt_mod c - 1)
          with (tm_ntick (ts_heap s x) - 1 + 1 * tnt_mod c) by lia.
        rewrite N.mod_add by lia. rewrite N.mod_small; lia. }
    set (n := tm_ntick (ts_heap s x) - 1). set (s1 := set_ntick s x n).
    assert (Hp1 : path (ts_heap s1) (ts_head s1) (pre ++ x :: post)).
    { eapply path_ext; [exact Hp|]. intros; apply set_ntick_next. }
    destruct (N.eqb_spec n 0) as [Hn0|Hn0].
    + assert (Hnt : tm_ntick (ts_heap s x) = 1) by lia.
      replace (tm_period (ts_heap s1 x)) with (tm_period (ts_heap s x))
        by (symmetry; apply set_ntick_period).
      destruct (N.eqb_spec (tm_period (ts_heap s x)) 0) as [Hper|Hper].
      * destruct (rem_from_list_spec s1 pre x post Hp1 Hnd) as (s2 & Er & Hp2 & Hn2 & Hy2).
        rewrite Er. cbn [bind].
        destruct (Hhook x s2 w) as (s3 & Eh & Hh3 & Hx3). rewrite Eh. cbn [bind]. unfold tm_post at 1.
        cbn [bind].
        assert (Hnd' : NoDup (pre ++ post)) by (eapply NoDup_remove_1; eauto).
        destruct (IH pre s3 (w ++ [x]) fuel) as (s4 & P & Q & E4 & H1 & H2 & H3 & H4 & H5); auto; try lia.
        { rewrite Hh3. eapply path_ext; [exact Hp2|]. intros y _. apply Hx3. }
        { intros y Hy. assert (Hyx : y <> x) by (intros ->; apply in_app_iff in Hy; tauto).
          destruct (Hok y) as [Hu [Hr1 Hr2]].
          { apply in_app_iff in Hy. apply in_app_iff. simpl. tauto. }
          destruct (Hx3 y) as (_ & Q2 & _ & Q4 & Q5). destruct (Hy2 y) as (Y1 & Y2 & Y3).
          apply N.eqb_neq in Hyx. rewrite Hyx in Y3.
          unfold s1 in Y1, Y2, Y3. rewrite set_ntick_ntick, Hyx in Y1. rewrite set_ntick_period in Y2.
          rewrite set_ntick_used in Y3. split; [congruence|]. rewrite <- Y1 in Hr1. rewrite <- Y2 in Hr2.
          split; auto. }
        replace (tm_next (ts_heap s3 x)) with (hdo post).
        2:{ destruct (Hx3 x) as (-> & _). rewrite Hn2. unfold s1. now rewrite set_ntick_next. }
        rewrite E4.
        exists s4, (fun y => if y =? x then true else P y), (fun y => if y =? x then false else Q y).
        cbn [filter]. rewrite N.eqb_refl, !filter_upd by auto.
        split; [now rewrite <- app_assoc|].
        unfold tick_post. cbn [filter]. rewrite N.eqb_refl, !filter_upd by auto.
        assert (Hux4 : tm_used (ts_heap s4 x) = false /\ tm_ntick (ts_heap s4 x) = 0).
        { destruct (H4 x) as [A1 A2]; [rewrite in_app_iff; tauto|].
          destruct (Hx3 x) as (_ & Q2 & Q3 & _). destruct (Hy2 x) as (Y1 & Y2 & Y3).
          rewrite N.eqb_refl in Y3. split; [congruence|].
          rewrite A2 by congruence. rewrite Q3 by auto. rewrite Y1. unfold s1.
          rewrite set_ntick_ntick, N.eqb_refl. exact Hn0. }
        split; [exact H1|]. split; [exact H2|]. split; [|split].
        -- intros y Hy Hq. destruct (N.eqb_spec y x) as [->|Hyx]; auto.
           destruct Hy as [|Hy]; [congruence|]. apply H3; auto.
        -- intros y Hy. assert (Hyx : y <> x) by (intros ->; apply Hy; apply in_app_iff; right; now left).
           destruct (H4 y) as [A1 A2]; [rewrite in_app_iff in *; simpl in Hy; tauto|].
           destruct (Hx3 y) as (_ & Q2 & Q3 & _). destruct (Hy2 y) as (Y1 & Y2 & Y3).
           apply N.eqb_neq in Hyx. rewrite Hyx in Y3. unfold s1 in Y1, Y3.
           rewrite set_ntick_used in Y3. rewrite set_ntick_ntick, Hyx in Y1.
           split; [congruence|]. intros Hu. rewrite A2, Q3; congruence.
        -- intros y Hq. destruct (Hq _ _ _ _ _ Eh) as [K1 K2]. destruct (Hy2 y) as (Y1 & Y2 & Y3).
           unfold s1 in Y1, Y2. rewrite set_ntick_ntick in Y1. rewrite set_ntick_period in Y2.
           destruct (H5 y Hq) as [B1 B2].
           destruct (N.eqb_spec y x) as [->|Hyx].
           ++ split; [intros _|intros Hx; exfalso; apply Hx; now left].
              rewrite Hnt, Hper. simpl. repeat split; [|apply Hux4].
              destruct (B2 Hnpost) as [_ ->]. congruence.
           ++ split.
              ** intros [|Hy]; [congruence|]. destruct (B1 Hy) as (C1 & C2 & C3 & C4).
                 rewrite K1, K2, Y1, Y2 in *. auto.
              ** intros Hy. destruct (B2 ltac:(intros Hi; apply Hy; now right)) as [-> ->]. split; congruence.
      * cbn [bind]. set (s2 := set_ntick s1 x (tm_period (ts_heap s x))).
        destruct (Hhook x s2 w) as (s3 & Eh & Hh3 & Hx3). rewrite Eh. cbn [bind]. unfold tm_post at 1.
        cbn [bind]. rewrite <- (lasto_snoc pre x).
        assert (F2 : forall y, tm_next (ts_heap s2 y) = tm_next (ts_heap s y) /\
                    tm_used (ts_heap s2 y) = tm_used (ts_heap s y) /\
                    tm_period (ts_heap s2 y) = tm_period (ts_heap s y) /\
                    tm_ntick (ts_heap s2 y) = if y =? x then tm_period (ts_heap s x) else tm_ntick (ts_heap s y)).
        { intros y. unfold s2, s1. rewrite !set_ntick_next, !set_ntick_used, !set_ntick_period, !set_ntick_ntick.
          destruct (y =? x); auto. }
        replace (tm_next (ts_heap s3 x)) with (hdo post).
        2:{ destruct (Hx3 x) as (-> & _). destruct (F2 x) as (-> & _). congruence. }
        destruct (IH (pre ++ [x]) s3 (w ++ [x]) fuel) as (s4 & P & Q & E4 & H1 & H2 & H3 & H4 & H5); try lia.
        { rewrite Hh3. rewrite <- Hsn. eapply path_ext; [exact Hp|]. intros y _.
          destruct (Hx3 y) as (-> & _). apply F2. }
        { rewrite <- Hsn. exact Hnd. }
        { intros y Hy. rewrite <- Hsn in Hy. destruct (Hok y Hy) as [Hu [Hr1 Hr2]].
          destruct (Hx3 y) as (_ & Q2 & _ & Q4 & Q5). destruct (F2 y) as (_ & Y1 & Y2 & Y3).
          split; [congruence|]. split.
          - apply Q4. rewrite Y3. destruct (y =? x); lia.
          - apply Q5. congruence. }
        rewrite E4.
        exists s4, (fun y => if y =? x then true else P y), (fun y => if y =? x then true else Q y).
        cbn [filter]. rewrite N.eqb_refl, !filter_upd by auto.
        split; [now rewrite <- app_assoc|].
        unfold tick_post. cbn [filter]. rewrite N.eqb_refl, !filter_upd by auto.
        rewrite <- app_assoc in H1, H2. simpl in H1, H2.
        split; [exact H1|]. split; [exact H2|]. split; [|split].
        -- intros y Hy Hq. destruct (N.eqb_spec y x) as [->|Hyx]; [discriminate|].
           destruct Hy as [|Hy]; [congruence|]. apply H3; auto.
        -- intros y Hy. rewrite Hsn in Hy. destruct (H4 y Hy) as [A1 A2].
           assert (Hyx : y <> x) by (intros ->; apply Hy; rewrite !in_app_iff; simpl; tauto).
           destruct (Hx3 y) as (_ & Q2 & Q3 & _). destruct (F2 y) as (_ & Y1 & Y2 & Y3).
           apply N.eqb_neq in Hyx. rewrite Hyx in Y3.
           split; [congruence|]. intros Hu. rewrite A2, Q3; congruence.
        -- intros y Hq. destruct (Hq _ _ _ _ _ Eh) as [K1 K2]. destruct (F2 y) as (_ & Y1 & Y2 & Y3).
           destruct (H5 y Hq) as [B1 B2].
           destruct (N.eqb_spec y x) as [->|Hyx].
           ++ split; [intros _|intros Hx; exfalso; apply Hx; now left].
              rewrite Hnt. simpl. destruct (B2 Hnpost) as [-> ->].
              destruct (N.eqb_spec (tm_period (ts_heap s x)) 0); [congruence|].
              repeat split; congruence.
           ++ split.
              ** intros [|Hy]; [congruence|]. destruct (B1 Hy) as (C1 & C2 & C3 & C4).
                 rewrite K1, K2, Y2, Y3 in *. auto.
              ** intros Hy. destruct (B2 ltac:(intros Hi; apply Hy; now right)) as [-> ->]. split; congruence.
    + assert (Hnt : tm_ntick (ts_heap s x) <> 1) by lia.
      rewrite <- (lasto_snoc pre x).
      replace (tm_next (ts_heap s1 x)) with (hdo post) by (unfold s1; rewrite set_ntick_next; auto).
      assert (F1 : forall y, tm_next (ts_heap s1 y) = tm_next (ts_heap s y) /\
                    tm_used (ts_heap s1 y) = tm_used (ts_heap s y) /\
                    tm_period (ts_heap s1 y) = tm_period (ts_heap s y) /\
                    tm_ntick (ts_heap s1 y) = if y =? x then n else tm_ntick (ts_heap s y)).
      { intros y. unfold s1. rewrite !set_ntick_next, !set_ntick_used, !set_ntick_period, !set_ntick_ntick. auto. }
      destruct (IH (pre ++ [x]) s1 w fuel) as (s4 & P & Q & E4 & H1 & H2 & H3 & H4 & H5); try lia.
      { rewrite <- Hsn. exact Hp1. }
      { rewrite <- Hsn. exact Hnd. }
      { intros y Hy. rewrite <- Hsn in Hy. destruct (Hok y Hy) as [Hu [Hr1 Hr2]].
        destruct (F1 y) as (_ & Y1 & Y2 & Y3). split; [congruence|]. split.
        - rewrite Y3. destruct (y =? x); lia.
        - congruence. }
      rewrite E4.
      exists s4, (fun y => if y =? x then false else P y), (fun y => if y =? x then true else Q y).
      cbn [filter]. rewrite N.eqb_refl, !filter_upd by auto. split; [reflexivity|].
      unfold tick_post. cbn [filter]. rewrite N.eqb_refl, !filter_upd by auto.
      rewrite <- app_assoc in H1, H2. simpl in H1, H2.
      split; [exact H1|]. split; [exact H2|]. split; [|split].
      * intros y Hy Hq. destruct (N.eqb_spec y x) as [->|Hyx]; [discriminate|].
        destruct Hy as [|Hy]; [congruence|]. apply H3; auto.
      * intros y Hy. rewrite Hsn in Hy. destruct (H4 y Hy) as [A1 A2].
        assert (Hyx : y <> x) by (intros ->; apply Hy; rewrite !in_app_iff; simpl; tauto).
        destruct (F1 y) as (_ & Y1 & Y2 & Y3). apply N.eqb_neq in Hyx. rewrite Hyx in Y3.
        split; [congruence|]. intros Hu. rewrite A2; congruence.
      * intros y Hq. destruct (F1 y) as (_ & Y1 & Y2 & Y3). destruct (H5 y Hq) as [B1 B2].
        destruct (N.eqb_spec y x) as [->|Hyx].
        -- split; [intros _|intros Hx; exfalso; apply Hx; now left].
           destruct (B2 Hnpost) as [-> ->]. apply N.eqb_neq in Hnt. rewrite Hnt.
           repeat split; [exact Y2 | exact Y3].
        -- split.
           ++ intros [|Hy]; [congruence|]. destruct (B1 Hy) as (C1 & C2 & C3 & C4).
              rewrite Y2, Y3 in *. auto.
           ++ intros Hy. destruct (B2 ltac:(intros Hi; apply Hy; now right)) as [-> ->]. split; congruence.
Qed.

(** ** Histories *)
Record tm_inv (s : tmst) (led l : list N) : Prop := mkTI {
  ti_path : path (ts_heap s) (ts_head s) l;
  ti_nd : NoDup l;
  ti_inc : incl l led;
  ti_led : NoDup led;
  ti_in : forall x, In x l -> tm_used (ts_heap s x) = true /\ rok (ts_heap s x);
  ti_out : forall x, In x led -> ~ In x l ->
             tm_used (ts_heap s x) = false /\ tm_ntick (ts_heap s x) = 0 }.

Definition cd (s : tmst) (l : list N) (x : N) : countdown :=
  if in_dec N.eq_dec x l then Some (tm_ntick (ts_heap s x), tm_period (ts_heap s x)) else None.

Lemma known_spec t led : existsb (N.eqb t) led = true <-> In t led.
Proof.
  rewrite existsb_exists. split.
  - intros (x & Hx & E). apply N.eqb_eq in E. congruence.
  - intros H. exists t. split; auto. apply N.eqb_refl.
Qed.

Lemma inv_len s led l : tm_inv s led l -> (length l <= length led)%nat.
Proof. intros []. apply NoDup_incl_length; auto. Qed.

Lemma in_del t x (l : list N) : In x (filter (fun y => negb (y =? t)) l) <-> In x l /\ x <> t.
Proof.
  rewrite filter_In. destruct (N.eqb_spec x t); simpl; split; intros []; auto; congruence.
Qed.

Lemma tm_step_init s led l t : tm_inv s led l ->
  exists s', tm_init_ (length led) s t = Ok s' /\
    tm_inv s' (if existsb (N.eqb t) led then led else t :: led) (filter (fun y => negb (y =? t)) l) /\
    forall x, x <> t -> tm_ntick (ts_heap s' x) = tm_ntick (ts_heap s x) /\
                        tm_period (ts_heap s' x) = tm_period (ts_heap s x).
Proof.
  intros Hi. pose proof (inv_len _ _ _ Hi) as HL. destruct Hi.
  unfold tm_init_.
  assert (E : exists s1, (if tm_used (ts_heap s t) then search_and_remove (length led) s t else Ok s) = Ok s1 /\
     path (ts_heap s1) (ts_head s1) (filter (fun y => negb (y =? t)) l) /\
     forall y, y <> t -> tm_ntick (ts_heap s1 y) = tm_ntick (ts_heap s y) /\
               tm_period (ts_heap s1 y) = tm_period (ts_heap s y) /\
               tm_used (ts_heap s1 y) = tm_used (ts_heap s y)).
  { destruct (tm_used (ts_heap s t)) eqn:Eu.
    - destruct (search_and_remove_spec s t l (length led) ti_path0 ti_nd0 HL) as (s1 & E & Hp & Hy).
      exists s1. split; [exact E|]. split; [exact Hp|]. intros y Hyt.
      destruct (Hy y) as (H1 & H2 & H3). apply N.eqb_neq in Hyt. rewrite Hyt in H3. auto.
    - exists s. split; [reflexivity|]. split; [|auto].
      assert (Hn : ~ In t l) by (intros Hx; destruct (ti_in0 t Hx); congruence).
      assert (Hfl : filter (fun y => negb (y =? t)) l = l); [|now rewrite Hfl].
      clear - Hn. induction l as [|a l IH]; simpl; auto.
      destruct (N.eqb_spec a t); [subst; exfalso; apply Hn; now left|]. simpl. f_equal.
      apply IH. intros Hi; apply Hn; now right. }
  destruct E as (s1 & E & Hp & Hy). rewrite E. cbn [bind]. eexists. split; [reflexivity|].
  set (s2 := set_used (set_ntick s1 t 0) t false).
  assert (F : forall y, tm_next (ts_heap s2 y) = tm_next (ts_heap s1 y) /\
     (y <> t -> ts_heap s2 y = ts_heap s1 y)).
  { intros y. unfold s2. simpl. rewrite N.eqb_refl. destruct (N.eqb_spec y t); subst; simpl; auto.
    split; [reflexivity|congruence]. }
  split.
  - constructor.
    + change (ts_head s2) with (ts_head s1). eapply path_ext; [exact Hp|]. intros; apply F.
    + now apply NoDup_filter.
    + intros x Hx. apply in_del in Hx as [Hx _]. destruct (existsb (N.eqb t) led); [auto|right; auto].
    + destruct (existsb (N.eqb t) led) eqn:Ek; auto. constructor; auto.
      rewrite <- known_spec. congruence.
    + intros x Hx. apply in_del in Hx as [Hx Hxt]. destruct (F x) as [_ ->]; auto.
      destruct (Hy x Hxt) as (H1 & H2 & H3). destruct (ti_in0 x Hx) as [Hu [Hr1 Hr2]].
      split; [congruence|]. unfold rok. rewrite H1, H2. auto.
    + intros x Hx Hn. rewrite in_del in Hn. destruct (N.eq_dec x t) as [->|Hxt].
      * unfold s2. simpl. rewrite ?N.eqb_refl. simpl. rewrite ?N.eqb_refl. auto.
      * destruct (F x) as [_ ->]; auto. destruct (Hy x Hxt) as (-> & _ & ->).
        apply ti_out0; [|tauto]. destruct (existsb (N.eqb t) led); auto. destruct Hx; [congruence|auto].
  - intros x Hxt. destruct (F x) as [_ ->]; auto. destruct (Hy x Hxt) as (-> & -> & _). auto.
Qed.

Lemma tm_step_start s led l t n p : tm_inv s led l -> In t led -> 0 < n < tnt_mod c -> p < tnt_mod c ->
  exists s', tm_start c s t n p = Ok s' /\
    tm_inv s' led (if in_dec N.eq_dec t l then l else t :: l) /\
    (tm_ntick (ts_heap s' t) = n /\ tm_period (ts_heap s' t) = p) /\
    forall x, x <> t -> ts_heap s' x = ts_heap s x.
Proof.
  intros [] Ht Hn Hp. unfold tm_start. replace (negb (n =? 0)) with true by lia.
  rewrite rassert_true. cbn [bind].
  destruct (in_dec N.eq_dec t l) as [Hi|Hi].
  - destruct (ti_in0 t Hi) as [Hu _]. rewrite Hu. eexists. split; [reflexivity|].
    split; [|split].
    + constructor; auto; simpl.
      * eapply path_ext; [exact ti_path0|]. intros x _. destruct (N.eqb_spec x t); subst; reflexivity.
      * intros x Hx. destruct (N.eqb_spec x t); auto. unfold rok; simpl; auto.
      * intros x Hx Hnx. destruct (N.eqb_spec x t); subst; [tauto|auto].
    + simpl. rewrite N.eqb_refl. auto.
    + intros x Hx. simpl. apply N.eqb_neq in Hx. now rewrite Hx.
  - destruct (ti_out0 t Ht Hi) as [Hu _]. rewrite Hu. eexists. split; [reflexivity|].
    assert (Hne : forall x, In x l -> (x =? t) = false) by (intros x Hx; apply N.eqb_neq; intros ->; auto).
    split; [|split].
    + constructor; simpl.
      * split; [reflexivity|]. rewrite !N.eqb_refl. simpl. eapply path_ext; [exact ti_path0|].
        intros x Hx. rewrite !(Hne x Hx). reflexivity.
      * constructor; auto.
      * intros x [->|Hx]; auto.
      * auto.
      * intros x Hx. rewrite !N.eqb_refl. simpl. destruct (N.eqb_spec x t) as [->|Hxt].
        -- unfold rok; simpl; auto.
        -- destruct Hx as [|Hx]; [congruence|auto].
      * intros x Hx Hnx. destruct (N.eqb_spec x t) as [->|Hxt]; [exfalso; auto|]. apply ti_out0; auto.
    + simpl. rewrite ?N.eqb_refl. simpl. rewrite ?N.eqb_refl. auto.
    + intros x Hx. simpl. apply N.eqb_neq in Hx. now rewrite !Hx.
Qed.

Lemma tm_step_stop s led l t : tm_inv s led l -> In t led ->
  exists s', tm_stop (length led) s t = Ok (s', if in_dec N.eq_dec t l then true else false) /\
    tm_inv s' led (filter (fun y => negb (y =? t)) l) /\
    forall x, x <> t -> tm_ntick (ts_heap s' x) = tm_ntick (ts_heap s x) /\
                        tm_period (ts_heap s' x) = tm_period (ts_heap s x).
Proof.
  intros Hi Ht. pose proof (inv_len _ _ _ Hi) as HL. destruct Hi. unfold tm_stop.
  destruct (in_dec N.eq_dec t l) as [Hi|Hi].
  - destruct (ti_in0 t Hi) as [Hu [Hr1 Hr2]]. replace (tm_ntick (ts_heap s t) =? 0) with false by lia.
    set (s1 := set_ntick s t 0).
    destruct (search_and_remove_spec s1 t l (length led)) as (s2 & E & Hp & Hy); auto.
    { eapply path_ext; [exact ti_path0|]. intros; apply set_ntick_next. }
    rewrite E. cbn [bind]. eexists. split; [reflexivity|]. split.
    + constructor; auto.
      * now apply NoDup_filter.
      * intros x Hx. apply in_del in Hx as [Hx _]. auto.
      * intros x Hx. apply in_del in Hx as [Hx Hxt]. destruct (Hy x) as (H1 & H2 & H3).
        apply N.eqb_neq in Hxt. rewrite Hxt in H3. unfold s1 in *.
        rewrite set_ntick_ntick, Hxt in H1. rewrite set_ntick_period in H2. rewrite set_ntick_used in H3.
        destruct (ti_in0 x Hx) as [Hu' Hr]. split; [congruence|]. unfold rok in *. rewrite H1, H2. auto.
      * intros x Hx Hn. rewrite in_del in Hn. destruct (Hy x) as (H1 & H2 & H3).
        destruct (N.eqb_spec x t) as [->|Hxt].
        -- destruct (in_dec N.eq_dec t l); [|tauto]. split; auto. rewrite H1. unfold s1.
           now rewrite set_ntick_ntick, N.eqb_refl.
        -- unfold s1 in *. apply N.eqb_neq in Hxt as Hxt'. rewrite set_ntick_ntick, Hxt' in H1.
           rewrite set_ntick_used in H3. rewrite H1, H3. apply ti_out0; auto.
    + intros x Hxt. destruct (Hy x) as (H1 & H2 & _). unfold s1 in *. apply N.eqb_neq in Hxt.
      rewrite set_ntick_ntick, Hxt in H1. rewrite set_ntick_period in H2. auto.
  - destruct (ti_out0 t Ht Hi) as [Hu Hn]. rewrite Hn. cbn [N.eqb]. eexists. split; [reflexivity|].
    split; [|auto].
    assert (Hfl : filter (fun y => negb (y =? t)) l = l).
    { clear - Hi. induction l as [|a l IH]; simpl; auto.
      destruct (N.eqb_spec a t); [subst; exfalso; apply Hi; now left|]. simpl. f_equal.
      apply IH. intros H; apply Hi; now right. }
    rewrite Hfl. constructor; auto.
Qed.

Lemma tm_step_tick s led l : tm_inv s led l ->
  exists s' P Q, tm_tick c hook tm_post (length led) s [] = Ok (s', filter P l) /\
    tm_inv s' led (filter Q l) /\ tick_post s s' [] l P Q.
Proof.
  intros Hi. pose proof (inv_len _ _ _ Hi) as HL. destruct Hi. unfold tm_tick.
  destruct (tm_loop_spec l [] s [] (length led)) as (s' & P & Q & E & H); auto.
  rewrite (path_hdo _ _ _ ti_path0). simpl in E. rewrite E.
  exists s', P, Q. split; [reflexivity|]. split; [|exact H].
  destruct H as (H1 & H2 & H3 & H4 & H5). simpl in *.
  constructor; auto.
  - now apply NoDup_filter.
  - intros x Hx. apply filter_In in Hx as [Hx _]. auto.
  - intros x Hx Hn. destruct (in_dec N.eq_dec x l) as [Hxl|Hxl].
    + apply H3; auto. destruct (Q x) eqn:Eq; auto. exfalso; apply Hn. now apply filter_In.
    + destruct (ti_out0 x Hx Hxl) as [Hu Hz]. destruct (H4 x Hxl) as [A1 A2].
      rewrite A2 by auto. split; congruence.
Qed.

Lemma count_filter (P : N -> bool) l t : NoDup l ->
  count_occ N.eq_dec (filter P l) t = (if in_dec N.eq_dec t l then if P t then 1 else 0 else 0)%nat.
Proof.
  intros Hnd. induction Hnd as [|a l Ha Hnd IH]; simpl; [reflexivity|].
  destruct (N.eq_dec a t) as [->|Hne].
  - destruct (P t) eqn:Ep; simpl.
    + destruct (N.eq_dec t t); [|congruence]. rewrite IH. destruct (in_dec N.eq_dec t l); tauto.
    + rewrite IH. destruct (in_dec N.eq_dec t l); tauto.
  - destruct (P a); simpl.
    + destruct (N.eq_dec a t); [congruence|]. rewrite IH.
      destruct (in_dec N.eq_dec t l); reflexivity.
    + rewrite IH. destruct (in_dec N.eq_dec t l); reflexivity.
Qed.

Lemma cd_del s s1 l t t0 :
  (forall x, x <> t -> tm_ntick (ts_heap s1 x) = tm_ntick (ts_heap s x) /\
                       tm_period (ts_heap s1 x) = tm_period (ts_heap s x)) ->
  cd s1 (filter (fun y => negb (y =? t)) l) t0 = if t =? t0 then None else cd s l t0.
Proof.
  intros Hx. pose proof (in_del t t0 l) as Hd. unfold cd.
  destruct (N.eqb_spec t t0) as [->|Hne].
  - destruct (in_dec N.eq_dec t0 (filter (fun y => negb (y =? t0)) l)); auto. tauto.
  - destruct (Hx t0 ltac:(auto)) as [-> ->].
    destruct (in_dec N.eq_dec t0 (filter (fun y => negb (y =? t)) l)), (in_dec N.eq_dec t0 l); auto;
      exfalso; intuition congruence.
Qed.

Lemma tm_run_agrees t0 : hook_spares t0 hook -> forall ops s led l,
  tm_inv s led l -> Forall (tmop_ok c) ops ->
  exists s' led' l' rs, run (tm_step c hook) (s, led) ops = Ok ((s', led'), rs) /\
    tm_inv s' led' l' /\ agrees t0 (cd s l t0) (combine ops rs) /\
    cd s' l' t0 = track t0 (cd s l t0) (combine ops rs) /\ incl led led'.
Proof.
  intros Hq. induction ops as [|o ops IH]; intros s led l Hi Hop; cbn [run].
  - exists s, led, l, []. simpl. split; [reflexivity|]. split; [exact Hi|]. split; [exact I|]. split; [reflexivity|]. apply incl_refl.
  - inversion Hop as [|? ? Ho Hop']; subst.
    destruct o as [t|t n p|t|]; cbn [tm_step].
    + destruct (tm_step_init s led l t Hi) as (s1 & E & Hi1 & Hx). rewrite E. cbn [bind].
      destruct (IH _ _ _ Hi1 Hop') as (s' & led' & l' & rs & E' & Hi' & Ha & Htr & Hinc). rewrite E'. cbn [bind].
      do 4 eexists. split; [reflexivity|]. split; [exact Hi'|]. simpl.
      rewrite (cd_del s s1 l t t0 Hx) in Ha, Htr. split; [exact Ha|]. split; [exact Htr|].
      intros x Hxl. apply Hinc. destruct (existsb (N.eqb t) led); [auto|right; auto].
    + destruct (existsb (N.eqb t) led) eqn:Ek.
      * apply known_spec in Ek. destruct Ho as [Ho1 Ho2].
        destruct (tm_step_start s led l t n p Hi Ek Ho1 Ho2) as (s1 & E & Hi1 & [Hn Hp] & Hx).
        rewrite E. cbn [bind].
        destruct (IH _ _ _ Hi1 Hop') as (s' & led' & l' & rs & E' & Hi' & Ha & Htr & Hinc). rewrite E'. cbn [bind].
        do 4 eexists. split; [reflexivity|]. split; [exact Hi'|]. simpl.
        assert (Hcd : cd s1 (if in_dec N.eq_dec t l then l else t :: l) t0 =
                      if t =? t0 then Some (n, p) else cd s l t0); [|rewrite Hcd in Ha, Htr; auto].
        unfold cd. destruct (N.eqb_spec t t0) as [->|Hne].
        -- rewrite Hn, Hp. destruct (in_dec N.eq_dec t0 l) as [Hin|Hin].
           ++ destruct (in_dec N.eq_dec t0 l); tauto.
           ++ destruct (in_dec N.eq_dec t0 (t0 :: l)) as [|Hx0]; auto. exfalso; apply Hx0; now left.
        -- rewrite Hx by auto. destruct (in_dec N.eq_dec t l); auto.
           destruct (in_dec N.eq_dec t0 (t :: l)) as [Hy|Hy], (in_dec N.eq_dec t0 l); auto; exfalso; simpl in Hy; intuition congruence.
      * destruct (IH _ _ _ Hi Hop') as (s' & led' & l' & rs & E' & Hi' & Ha & Htr & Hinc). cbn [bind]. rewrite E'. cbn [bind].
        do 4 eexists. split; [reflexivity|]. split; [exact Hi'|]. simpl. auto.
    + destruct (existsb (N.eqb t) led) eqn:Ek.
      * apply known_spec in Ek.
        destruct (tm_step_stop s led l t Hi Ek) as (s1 & E & Hi1 & Hx). rewrite E. cbn [bind].
        destruct (IH _ _ _ Hi1 Hop') as (s' & led' & l' & rs & E' & Hi' & Ha & Htr & Hinc). rewrite E'. cbn [bind].
        do 4 eexists. split; [reflexivity|]. split; [exact Hi'|]. simpl.
        rewrite (cd_del s s1 l t t0 Hx) in Ha, Htr. split; [split; [|exact Ha]|auto].
        intros ->. unfold cd. destruct (in_dec N.eq_dec t0 l); reflexivity.
      * destruct (IH _ _ _ Hi Hop') as (s' & led' & l' & rs & E' & Hi' & Ha & Htr & Hinc). cbn [bind]. rewrite E'. cbn [bind].
        do 4 eexists. split; [reflexivity|]. split; [exact Hi'|]. simpl. auto.
    + destruct (tm_step_tick s led l Hi) as (s1 & P & Q & E & Hi1 & HT). rewrite E. cbn [bind].
      destruct (IH _ _ _ Hi1 Hop') as (s' & led' & l' & rs & E' & Hi' & Ha & Htr & Hinc). rewrite E'. cbn [bind].
      do 4 eexists. split; [reflexivity|]. split; [exact Hi'|]. simpl.
      destruct HT as (_ & _ & _ & _ & H5). destruct (H5 t0 Hq) as [B1 B2].
      rewrite count_filter by apply Hi.
      assert (Hcd : cd s1 (filter Q l) t0 = after_tick (cd s l t0) /\
                    fires (cd s l t0) = if in_dec N.eq_dec t0 l then P t0 else false).
      { unfold cd. destruct (in_dec N.eq_dec t0 l) as [Hin|Hin].
        - destruct (B1 Hin) as (C1 & C2 & C3 & C4). simpl. split; [|congruence].
          destruct (in_dec N.eq_dec t0 (filter Q l)) as [Hf|Hf].
          + apply filter_In in Hf as [_ Hf]. rewrite C2 in Hf. rewrite C3, C4.
            destruct (tm_ntick (ts_heap s t0) =? 1); auto.
            destruct (tm_period (ts_heap s t0) =? 0); auto. discriminate.
          + assert (Hqf : Q t0 = false) by (destruct (Q t0) eqn:Eq; auto; exfalso; apply Hf; now apply filter_In).
            rewrite Hqf in C2. destruct (tm_ntick (ts_heap s t0) =? 1), (tm_period (ts_heap s t0) =? 0);
              simpl in C2; congruence.
        - split; [|reflexivity]. simpl.
          destruct (in_dec N.eq_dec t0 (filter Q l)) as [Hf|Hf]; auto. apply filter_In in Hf. tauto. }
      destruct Hcd as [Hcd ->]. rewrite Hcd in Ha, Htr. split; [split; [|exact Ha]|auto].
      destruct (in_dec N.eq_dec t0 l); reflexivity.
Qed.

Lemma tm_init_inv h : tm_inv (tm_init h) [] [].
Proof. constructor; simpl; auto; try constructor; try easy. Qed.

(** *** From initialisation *)
Lemma hist_inv h ops s led rs :
  Forall (tmop_ok c) ops -> run (tm_step c hook) (tm_init h, []) ops = Ok ((s, led), rs) ->
  exists l, tm_inv s led l.
Proof.
  intros Hop Hr. revert Hr. generalize (tm_init_inv h). generalize (tm_init h) as s0.
  generalize (@nil N) at 1 3 as led0. generalize (@nil N) as l0. revert rs.
  induction ops as [|o ops IH]; intros rs l0 led0 s0 Hi Hr; cbn [run] in Hr.
  - inversion Hr; subst. eauto.
  - inversion Hop as [|? ? Ho Hop']; subst. apply bind_ok in Hr as (((s1 & led1) & r) & Hs & Hr).
    apply bind_ok in Hr as (((s2 & led2) & rs2) & Hr & Hx). inversion Hx; subst. clear Hx.
    assert (G : exists l1, tm_inv s1 led1 l1); [|destruct G as [l1 G]; eapply IH; eauto].
    destruct o as [t|t n p|t|]; cbn [tm_step] in Hs.
    + destruct (tm_step_init s0 led0 l0 t Hi) as (s' & E & Hi1 & _). rewrite E in Hs. inversion Hs; subst. eauto.
    + destruct (existsb (N.eqb t) led0) eqn:Ek; [|inversion Hs; subst; eauto].
      apply known_spec in Ek. destruct Ho as [Ho1 Ho2].
      destruct (tm_step_start s0 led0 l0 t n p Hi Ek Ho1 Ho2) as (s' & E & Hi1 & _).
      rewrite E in Hs. inversion Hs; subst. eauto.
    + destruct (existsb (N.eqb t) led0) eqn:Ek; [|inversion Hs; subst; eauto].
      apply known_spec in Ek. destruct (tm_step_stop s0 led0 l0 t Hi Ek) as (s' & E & Hi1 & _).
      rewrite E in Hs. inversion Hs; subst. eauto.
    + destruct (tm_step_tick s0 led0 l0 Hi) as (s' & P & Q & E & Hi1 & _).
      rewrite E in Hs. inversion Hs; subst. eauto.
Qed.

Lemma hist_total h ops : Forall (tmop_ok c) ops ->
  exists s rs, run (tm_step c hook) (tm_init h, []) ops = Ok (s, rs).
Proof.
  intros Hop. generalize (tm_init_inv h). generalize (tm_init h) as s0.
  generalize (@nil N) at 1 3 as led0. generalize (@nil N) as l0.
  induction Hop as [|o ops Ho Hop IH]; intros l0 led0 s0 Hi; cbn [run].
  - eauto.
  - assert (G : exists s1 led1 l1 r, tm_step c hook (s0, led0) o = Ok ((s1, led1), r) /\ tm_inv s1 led1 l1).
    { destruct o as [t|t n p|t|]; cbn [tm_step].
      + destruct (tm_step_init s0 led0 l0 t Hi) as (s' & E & Hi1 & _). rewrite E. cbn [bind]. eauto 10.
      + destruct (existsb (N.eqb t) led0) eqn:Ek; [|eauto 10].
        apply known_spec in Ek. destruct Ho as [Ho1 Ho2].
        destruct (tm_step_start s0 led0 l0 t n p Hi Ek Ho1 Ho2) as (s' & E & Hi1 & _).
        rewrite E. cbn [bind]. eauto 10.
      + destruct (existsb (N.eqb t) led0) eqn:Ek; [|eauto 10].
        apply known_spec in Ek. destruct (tm_step_stop s0 led0 l0 t Hi Ek) as (s' & E & Hi1 & _).
        rewrite E. cbn [bind]. eauto 10.
      + destruct (tm_step_tick s0 led0 l0 Hi) as (s' & P & Q & E & Hi1 & _).
        rewrite E. cbn [bind]. eauto 10. }
    destruct G as (s1 & led1 & l1 & r & E & Hi1). rewrite E. cbn [bind].
    destruct (IH _ _ _ Hi1) as (s2 & rs & E2). rewrite E2. cbn [bind]. eauto.
Qed.

Lemma hist_agrees h ops s led rs t0 : hook_spares t0 hook ->
  Forall (tmop_ok c) ops -> run (tm_step c hook) (tm_init h, []) ops = Ok ((s, led), rs) ->
  agrees t0 None (combine ops rs).
Proof.
  intros Hq Hop Hr. destruct (tm_run_agrees t0 Hq ops _ _ _ (tm_init_inv h) Hop)
    as (s' & led' & l' & rs' & E & _ & Ha & _). rewrite Hr in E. inversion E; subst. exact Ha.
Qed.

Lemma hist_list h ops s led rs : (forall t, hook_spares t hook) ->
  Forall (tmop_ok c) ops -> run (tm_step c hook) (tm_init h, []) ops = Ok ((s, led), rs) ->
  exists l, path (ts_heap s) (ts_head s) l /\ NoDup l /\ incl l led /\
    forall t, In t l <-> running (track t None (combine ops rs)) = true.
Proof.
  intros Hq Hop Hr. destruct (hist_inv h ops s led rs Hop Hr) as [l Hl].
  exists l. split; [apply Hl|]. split; [apply Hl|]. split; [apply Hl|]. intros t.
  destruct (tm_run_agrees t (Hq t) ops _ _ _ (tm_init_inv h) Hop)
    as (s' & led' & l' & rs' & E & Hl' & _ & Htr & _). rewrite Hr in E. inversion E; subst.
  assert (l = l') by (eapply path_len; [apply Hl | eassumption || apply Hl']). subst l'. change None with (cd (tm_init h) [] t). rewrite <- Htr. unfold cd.
  destruct (in_dec N.eq_dec t l); simpl; split; auto; try tauto. discriminate.
Qed.

(** Expirations of a timer nobody addresses. *)
Fixpoint ticked (j : nat) (x : countdown) : countdown :=
  match j with O => x | S j => ticked j (after_tick x) end.

Lemma agrees_nth t0 : forall ops rs x, length ops = length rs ->
  agrees t0 x (combine ops rs) -> Forall (spares t0) ops ->
  forall j ps, nth_error (ticks_of rs) j = Some ps ->
  count_occ N.eq_dec ps t0 = (if fires (ticked j x) then 1 else 0)%nat.
Proof.
  induction ops as [|o ops IH]; intros [|r rs] x HL Ha Hs j ps Hj; try discriminate.
  - destruct j; discriminate.
  - injection HL as HL. inversion Hs as [|? ? Ho Hs']; subst. cbn [combine agrees] in Ha.
    destruct o as [t|t n p|t|], r as [| |b|qs]; cbn [ticks_of] in Hj; simpl in Ho, Ha;
      try contradiction; try (apply (IH rs x HL Ha Hs' j ps Hj)).
    + apply N.eqb_neq in Ho. rewrite Ho in Ha. apply (IH rs x HL Ha Hs' j ps Hj).
    + apply N.eqb_neq in Ho. rewrite Ho in Ha. apply (IH rs x HL Ha Hs' j ps Hj).
    + destruct Ha as [_ Ha]. apply N.eqb_neq in Ho. rewrite Ho in Ha. apply (IH rs x HL Ha Hs' j ps Hj).
    + destruct Ha as [Hc Ha]. destruct j as [|j]; simpl in Hj.
      * injection Hj as <-. exact Hc.
      * apply (IH rs _ HL Ha Hs' j ps Hj).
Qed.

Lemma ticked_none j : ticked j None = None.
Proof. induction j; simpl; auto. Qed.

Lemma ticked_oneshot : forall j n, 0 < n ->
  fires (ticked j (Some (n, 0))) = (N.of_nat j + 1 =? n).
Proof.
  induction j as [|j IH]; intros n Hn; cbn [ticked].
  - cbn [fires]. destruct (N.eqb_spec n 1), (N.eqb_spec (N.of_nat 0 + 1) n); auto; lia.
  - cbn [after_tick]. destruct (N.eqb_spec n 1) as [->|Hn1].
    + simpl (if 0 =? 0 then _ else _). rewrite ticked_none. cbn [fires]. symmetry. apply N.eqb_neq. lia.
    + rewrite IH by lia. destruct (N.eqb_spec (N.of_nat j + 1) (n - 1)), (N.eqb_spec (N.of_nat (S j) + 1) n); auto; lia.
Qed.

Lemma ticked_periodic : forall j n p, 0 < n -> 0 < p ->
  fires (ticked j (Some (n, p))) = (n <=? N.of_nat j + 1) && ((N.of_nat j + 1 - n) mod p =? 0).
Proof.
  induction j as [|j IH]; intros n p Hn Hp; cbn [ticked].
  - cbn [fires]. destruct (N.eqb_spec n 1) as [->|Hn1].
    + change (N.of_nat 0 + 1 - 1) with 0. rewrite N.mod_0_l by lia. reflexivity.
    + replace (n <=? N.of_nat 0 + 1) with false by lia. reflexivity.
  - cbn [after_tick]. destruct (N.eqb_spec n 1) as [->|Hn1].
    + destruct (N.eqb_spec p 0); [lia|]. rewrite IH by lia.
      replace (1 <=? N.of_nat (S j) + 1) with true by lia.
      replace (N.of_nat (S j) + 1 - 1) with (N.of_nat j + 1) by lia. simpl.
      destruct (N.leb_spec p (N.of_nat j + 1)) as [Hle|Hlt]; simpl.
      * f_equal. replace (N.of_nat j + 1) with (N.of_nat j + 1 - p + 1 * p) at 2 by lia.
        now rewrite N.mod_add by lia.
      * rewrite N.mod_small by lia. symmetry. apply N.eqb_neq. lia.
    + rewrite IH by lia. replace (n - 1 <=? N.of_nat j + 1) with (n <=? N.of_nat (S j) + 1) by lia.
      f_equal. f_equal. f_equal. lia.
Qed.

Lemma run_len (ops : list tmop) : forall (s s' : tmst * list N) rs,
  run (tm_step c hook) s ops = Ok (s', rs) -> length ops = length rs.
Proof.
  induction ops as [|o ops IH]; intros s s' rs H; cbn [run] in H.
  - inversion H; reflexivity.
  - apply bind_ok in H as ((s1 & r) & _ & H). apply bind_ok in H as ((s2 & rs2) & H2 & H).
    inversion H; subst. simpl. f_equal. eauto.
Qed.

(** Expirations after a start. *)
Lemma hist_after_start h ops0 s led rs0 t n p ops s' r rs : hook_spares t hook ->
  Forall (tmop_ok c) ops0 -> Forall (tmop_ok c) (TStart t n p :: ops) ->
  run (tm_step c hook) (tm_init h, []) ops0 = Ok ((s, led), rs0) -> In t led ->
  run (tm_step c hook) (s, led) (TStart t n p :: ops) = Ok (s', r :: rs) ->
  Forall (spares t) ops ->
  forall j ps, nth_error (ticks_of rs) j = Some ps ->
  count_occ N.eq_dec ps t = (if fires (ticked j (Some (n, p))) then 1 else 0)%nat.
Proof.
  intros Hq Hop0 Hop Hr0 Ht Hr Hsp j ps Hj.
  destruct (hist_inv h ops0 s led rs0 Hop0 Hr0) as [l Hl].
  destruct (tm_run_agrees t Hq (TStart t n p :: ops) s led l Hl Hop)
    as (s1 & led1 & l1 & rs1 & E & _ & Ha & _).
  rewrite Hr in E. injection E as E1 E2. subst s' rs1.
  pose proof (run_len _ _ _ _ Hr) as HL. injection HL as HL.
  cbn [combine agrees] in Ha.
  assert (Er : r = TOUnit).
  { cbn [run tm_step] in Hr. apply known_spec in Ht. rewrite Ht in Hr.
    apply bind_ok in Hr as ((x & y) & Hx & Hr). apply bind_ok in Hx as (z & _ & Hx).
    inversion Hx; subst. apply bind_ok in Hr as ((x2 & y2) & _ & Hr). inversion Hr. reflexivity. }
  subst r. rewrite N.eqb_refl in Ha. eapply agrees_nth; eauto.
Qed.

(** Silence after a stop. *)
Lemma hist_after_stop h ops0 s led rs0 t ops s' r rs : hook_spares t hook ->
  Forall (tmop_ok c) ops0 -> Forall (tmop_ok c) ops ->
  run (tm_step c hook) (tm_init h, []) ops0 = Ok ((s, led), rs0) -> In t led ->
  run (tm_step c hook) (s, led) (TStop t :: ops) = Ok (s', r :: rs) ->
  Forall (spares t) ops ->
  r = TOStop (running (track t None (combine ops0 rs0))) /\
  forall ps, In ps (ticks_of rs) -> ~ In t ps.
Proof.
  intros Hq Hop0 Hop Hr0 Ht Hr Hsp.
  destruct (tm_run_agrees t Hq ops0 _ _ _ (tm_init_inv h) Hop0) as (s0 & led0 & l & rs00 & E & Hl & _ & Htr & _).
  rewrite Hr0 in E. injection E as E1 E2 E3. subst s0 led0 rs00.
  destruct (tm_run_agrees t Hq (TStop t :: ops) s led l Hl ltac:(constructor; simpl; auto))
    as (s1 & led1 & l1 & rs1 & E & _ & Ha & _).
  rewrite Hr in E. injection E as E1 E2. subst s' rs1.
  pose proof (run_len _ _ _ _ Hr) as HL. injection HL as HL.
  cbn [combine agrees] in Ha.
  assert (Er : exists b, r = TOStop b).
  { cbn [run tm_step] in Hr. apply known_spec in Ht. rewrite Ht in Hr.
    apply bind_ok in Hr as ((x & y) & Hx & Hr). apply bind_ok in Hx as ((z & b) & _ & Hx).
    inversion Hx; subst. apply bind_ok in Hr as ((x2 & y2) & _ & Hr). inversion Hr. eauto. }
  destruct Er as [b ->]. rewrite N.eqb_refl in Ha. destruct Ha as [Hb Ha].
  split.
  - rewrite Hb by auto. rewrite Htr. reflexivity.
  - intros ps Hin Hp. apply In_nth_error in Hin as [j Hj].
    pose proof (agrees_nth t ops rs _ HL Ha Hsp j ps Hj) as Hc. rewrite ticked_none in Hc. simpl in Hc.
    apply (count_occ_In N.eq_dec) in Hp. lia.
Qed.

(** *** Order of simultaneous expirations *)
Lemma before_filter b a (P : N -> bool) l :
  before b a l -> P b = true -> P a = true -> before b a (filter P l).
Proof.
  intros (l1 & l2 & l3 & ->) Hb Ha. exists (filter P l1), (filter P l2), (filter P l3).
  rewrite filter_app. cbn [filter]. rewrite Hb. rewrite filter_app. cbn [filter]. rewrite Ha. reflexivity.
Qed.

Definition ordered (b a : N) (l : list N) : Prop := In a l -> In b l -> before b a l.

Lemma ordered_filter b a P l : ordered b a l -> ordered b a (filter P l).
Proof.
  intros H Ha Hb. apply filter_In in Ha as [Ha1 Ha2]. apply filter_In in Hb as [Hb1 Hb2].
  apply before_filter; auto.
Qed.

Lemma run_ordered a b : a <> b -> forall ops s led l s' rs,
  tm_inv s led l -> Forall (tmop_ok c) ops -> Forall (spares a) ops -> Forall (spares b) ops ->
  ordered b a l -> run (tm_step c hook) (s, led) ops = Ok (s', rs) ->
  forall ps, In ps (ticks_of rs) -> ordered b a ps.
Proof.
  intros Hab. induction ops as [|o ops IH]; intros s led l s' rs Hi Hop Ha Hb Hord Hr ps Hps; cbn [run] in Hr.
  - inversion Hr; subst. easy.
  - inversion Hop as [|? ? Ho Hop']; inversion Ha as [|? ? Hao Ha']; inversion Hb as [|? ? Hbo Hb']; subst.
    apply bind_ok in Hr as (((s1 & led1) & r) & Hs & Hr).
    apply bind_ok in Hr as ((s2 & rs2) & Hr & Hx). inversion Hx; subst. clear Hx.
    destruct o as [t|t n p|t|]; cbn [tm_step] in Hs.
    + destruct (tm_step_init s led l t Hi) as (s0 & E & Hi1 & _). rewrite E in Hs. inversion Hs; subst.
      simpl in Hps. eapply IH; eauto. now apply ordered_filter.
    + destruct (existsb (N.eqb t) led) eqn:Ek; [|inversion Hs; subst; eapply IH; eauto].
      apply known_spec in Ek. destruct Ho as [Ho1 Ho2].
      destruct (tm_step_start s led l t n p Hi Ek Ho1 Ho2) as (s0 & E & Hi1 & _).
      rewrite E in Hs. inversion Hs; subst. simpl in Hps. eapply IH; eauto.
      destruct (in_dec N.eq_dec t l); auto. simpl in Hao, Hbo.
      intros Ha1 Hb1. destruct Ha1 as [|Ha1]; [congruence|]. destruct Hb1 as [|Hb1]; [congruence|].
      destruct (Hord Ha1 Hb1) as (l1 & l2 & l3 & ->). exists (t :: l1), l2, l3. reflexivity.
    + destruct (existsb (N.eqb t) led) eqn:Ek; [|inversion Hs; subst; eapply IH; eauto].
      apply known_spec in Ek. destruct (tm_step_stop s led l t Hi Ek) as (s0 & E & Hi1 & _).
      rewrite E in Hs. inversion Hs; subst. simpl in Hps. eapply IH; eauto. now apply ordered_filter.
    + destruct (tm_step_tick s led l Hi) as (s0 & P & Q & E & Hi1 & _).
      rewrite E in Hs. inversion Hs; subst. simpl in Hps. destruct Hps as [<-|Hps].
      * now apply ordered_filter.
      * eapply IH; eauto. now apply ordered_filter.
Qed.

Lemma hist_order h ops0 s led rs0 a b na pa nb pb ops s' ra rb rs : a <> b ->
  (forall t, hook_spares t hook) ->
  Forall (tmop_ok c) ops0 -> Forall (tmop_ok c) (TStart a na pa :: TStart b nb pb :: ops) ->
  run (tm_step c hook) (tm_init h, []) ops0 = Ok ((s, led), rs0) -> In a led -> In b led ->
  running (track a None (combine ops0 rs0)) = false ->
  running (track b None (combine ops0 rs0)) = false ->
  run (tm_step c hook) (s, led) (TStart a na pa :: TStart b nb pb :: ops) = Ok (s', ra :: rb :: rs) ->
  Forall (spares a) ops -> Forall (spares b) ops ->
  forall ps, In ps (ticks_of rs) -> In a ps -> In b ps -> before b a ps.
Proof.
  intros Hab Hq Hop0 Hop Hr0 Ha Hb Hna Hnb Hr Hsa Hsb ps Hps.
  destruct (hist_list h ops0 s led rs0 Hq Hop0 Hr0) as (l' & Hp' & _ & _ & Hin).
  destruct (hist_inv h ops0 s led rs0 Hop0 Hr0) as [l Hl].
  assert (l = l') by (eapply path_len; [apply Hl | eassumption || apply Hl']). subst l'.
  assert (Hal : ~ In a l) by (rewrite Hin; congruence).
  assert (Hbl : ~ In b l) by (rewrite Hin; congruence).
  inversion Hop as [|? ? Hoa Hop1]; inversion Hop1 as [|? ? Hob Hop2]; subst.
  destruct Hoa as [Hoa1 Hoa2], Hob as [Hob1 Hob2].
  destruct (tm_step_start s led l a na pa Hl Ha Hoa1 Hoa2) as (s1 & E1 & Hi1 & _).
  destruct (in_dec N.eq_dec a l) as [|_]; [tauto|].
  destruct (tm_step_start s1 led (a :: l) b nb pb Hi1 Hb Hob1 Hob2) as (s2 & E2 & Hi2 & _).
  destruct (in_dec N.eq_dec b (a :: l)) as [[|]|_]; [congruence|tauto|].
  apply known_spec in Ha. apply known_spec in Hb.
  cbn [run tm_step] in Hr. rewrite Ha, E1 in Hr. cbn [bind] in Hr.
  cbn [run tm_step] in Hr. rewrite Hb, E2 in Hr. cbn [bind] in Hr.
  apply bind_ok in Hr as ((x2 & y2) & Hr & Hx). apply bind_ok in Hr as ((x3 & y3) & Hr & Hx3).
  inversion Hx3; subst. inversion Hx; subst.
  intros HA HB. refine (run_ordered a b Hab ops s2 led _ _ _ Hi2 Hop2 Hsa Hsb _ Hr ps Hps HA HB).
  intros _ _. exists [], [], l. reflexivity.
Qed.

(** Restarting a running timer changes nothing but its own count. *)
Lemma hist_restart h ops s led rs t n p : (forall t, hook_spares t hook) ->
  Forall (tmop_ok c) ops -> run (tm_step c hook) (tm_init h, []) ops = Ok ((s, led), rs) ->
  In t led -> 0 < n -> running (track t None (combine ops rs)) = true ->
  exists s', tm_start c s t n p = Ok s' /\ ts_head s' = ts_head s /\
    (forall x, tm_next (ts_heap s' x) = tm_next (ts_heap s x)) /\
    (forall x, x <> t -> ts_heap s' x = ts_heap s x).
Proof.
  intros Hq Hop Hr Ht Hn Hrun. destruct (hist_list h ops s led rs Hq Hop Hr) as (l' & Hp' & _ & _ & Hin).
  destruct (hist_inv h ops s led rs Hop Hr) as [l Hl].
  assert (l = l') by (eapply path_len; [apply Hl | eassumption || apply Hl']). subst l'. apply Hin in Hrun. destruct (ti_in _ _ _ Hl t Hrun) as [Hu _].
  unfold tm_start. replace (negb (n =? 0)) with true by lia. rewrite rassert_true. cbn [bind].
  rewrite Hu. eexists. split; [reflexivity|]. split; [reflexivity|]. split.
  - intros x. simpl. destruct (N.eqb_spec x t); subst; reflexivity.
  - intros x Hx. simpl. apply N.eqb_neq in Hx. now rewrite Hx.
Qed.
End Tmr.

(** ** Without hooks: the exact list machine *)
Lemma no_hook_ok c : hook_ok c no_hook.
Proof. intros t s w. exists s. repeat split; auto; lia. Qed.
Lemma no_hook_spares t : hook_spares t no_hook.
Proof. intros t1 s w s' w' H. inversion H; auto. Qed.

Definition lkl (s : tmst) (l : list N) : list lk_timer :=
  map (fun t => mkLk t (tm_ntick (ts_heap s t)) (tm_period (ts_heap s t))) l.

Lemma lkl_cons s a l :
  lkl s (a :: l) = mkLk a (tm_ntick (ts_heap s a)) (tm_period (ts_heap s a)) :: lkl s l.
Proof. reflexivity. Qed.

Lemma lkl_ext s s' l :
  (forall x, In x l -> tm_ntick (ts_heap s' x) = tm_ntick (ts_heap s x) /\
                       tm_period (ts_heap s' x) = tm_period (ts_heap s x)) -> lkl s' l = lkl s l.
Proof. intros H. apply map_ext_in. intros x Hx. destruct (H x Hx) as [-> ->]. reflexivity. Qed.

Lemma lkl_del s l t : lkl s (filter (fun y => negb (y =? t)) l) = lk_del t (lkl s l).
Proof.
  induction l as [|a l IH]; simpl; auto. destruct (N.eqb_spec a t); simpl; auto. now rewrite IH.
Qed.

Lemma lkl_mem s l t : lk_mem t (lkl s l) = if in_dec N.eq_dec t l then true else false.
Proof.
  unfold lk_mem. induction l as [|a l IH]; simpl; auto. rewrite IH.
  destruct (N.eqb_spec a t) as [->|Hne].
  - destruct (N.eq_dec t t); [reflexivity|congruence].
  - destruct (N.eq_dec a t); [congruence|]. destruct (in_dec N.eq_dec t l); reflexivity.
Qed.

Lemma lk_refines c : forall ops s led l, tm_inv c s led l -> Forall (tmop_ok c) ops ->
  exists s', run (tm_step c no_hook) (s, led) ops = Ok (s', lk_run (lkl s l, led) ops).
Proof.
  induction ops as [|o ops IH]; intros s led l Hi Hop; cbn [run lk_run]; [eauto|].
  inversion Hop as [|? ? Ho Hop']; subst. destruct o as [t|t n p|t|]; cbn [tm_step lk_step fst snd].
  - destruct (tm_step_init c s led l t Hi) as (s1 & E & Hi1 & Hx). rewrite E. cbn [bind].
    destruct (IH _ _ _ Hi1 Hop') as (s2 & E2). rewrite E2. cbn [bind]. rewrite <- (lkl_del s).
    rewrite (lkl_ext s s1); [eauto|]. intros x Hxi. apply in_del in Hxi as [_ Hne]. auto.
  - destruct (existsb (N.eqb t) led) eqn:Ek.
    + apply known_spec in Ek. destruct Ho as [Ho1 Ho2].
      destruct (tm_step_start c s led l t n p Hi Ek Ho1 Ho2) as (s1 & E & Hi1 & [Hn Hp] & Hx).
      rewrite E. cbn [bind]. destruct (IH _ _ _ Hi1 Hop') as (s2 & E2). rewrite E2. cbn [bind fst snd].
      rewrite lkl_mem. destruct (in_dec N.eq_dec t l) as [Hin|Hin].
      * replace (map _ (lkl s l)) with (lkl s1 l); [eauto|]. unfold lkl. rewrite map_map.
        apply map_ext. intros x. simpl. destruct (N.eqb_spec x t) as [->|Hne]; [congruence|].
        now rewrite Hx by auto.
      * replace (mkLk t n p :: lkl s l) with (lkl s1 (t :: l)); [eauto|]. simpl. rewrite Hn, Hp. f_equal.
        apply lkl_ext. intros x Hxl. rewrite Hx; auto. intros ->; auto.
    + cbn [bind]. destruct (IH _ _ _ Hi Hop') as (s2 & E2). rewrite E2. cbn [bind]. eauto.
  - destruct (existsb (N.eqb t) led) eqn:Ek.
    + apply known_spec in Ek. destruct (tm_step_stop c s led l t Hi Ek) as (s1 & E & Hi1 & Hx).
      rewrite E. cbn [bind]. destruct (IH _ _ _ Hi1 Hop') as (s2 & E2). rewrite E2. cbn [bind fst snd].
      rewrite lkl_mem, <- (lkl_del s). rewrite (lkl_ext s s1); [eauto|].
      intros x Hxi. apply in_del in Hxi as [_ Hne]. auto.
    + cbn [bind]. destruct (IH _ _ _ Hi Hop') as (s2 & E2). rewrite E2. cbn [bind]. eauto.
  - destruct (tm_step_tick c no_hook (no_hook_ok c) s led l Hi) as (s1 & P & Q & E & Hi1 & HT).
    rewrite E. cbn [bind]. destruct (IH _ _ _ Hi1 Hop') as (s2 & E2). rewrite E2. cbn [bind].
    destruct HT as (_ & _ & _ & _ & H5).
    assert (HA : filter P l = map lk_id (filter (fun x => lk_left x =? 1) (lkl s l)) /\
                 lkl s1 (filter Q l) =
                 concat (map (fun x => if lk_left x =? 1
                              then if lk_per x =? 0 then [] else [mkLk (lk_id x) (lk_per x) (lk_per x)]
                              else [mkLk (lk_id x) (lk_left x - 1) (lk_per x)]) (lkl s l))).
    { assert (G : forall x, In x l -> P x = (tm_ntick (ts_heap s x) =? 1) /\
        Q x = negb ((tm_ntick (ts_heap s x) =? 1) && (tm_period (ts_heap s x) =? 0)) /\
        tm_period (ts_heap s1 x) = tm_period (ts_heap s x) /\
        tm_ntick (ts_heap s1 x) = (if tm_ntick (ts_heap s x) =? 1 then tm_period (ts_heap s x)
                                   else tm_ntick (ts_heap s x) - 1))
        by (intros x Hx; apply (H5 x (no_hook_spares x)); auto).
      clear - G. induction l as [|a l IHl]; [split; reflexivity|].
      destruct IHl as [I1 I2]; [intros; apply G; now right|].
      destruct (G a (or_introl eq_refl)) as (G1 & G2 & G3 & G4).
      cbn [filter]. rewrite (lkl_cons s). cbn [filter map lk_left lk_per lk_id concat]. rewrite G1, G2.
      destruct (N.eqb_spec (tm_ntick (ts_heap s a)) 1) as [Hn|Hn].
      - destruct (N.eqb_spec (tm_period (ts_heap s a)) 0) as [Hp|Hp]; cbn [andb negb map lk_id app].
        + split; [f_equal; exact I1 | exact I2].
        + split; [f_equal; exact I1 |]. rewrite lkl_cons, I2, G3, G4. reflexivity.
      - cbn [andb negb app]. split; [exact I1|].
        rewrite lkl_cons, I2, G3, G4. reflexivity. }
    destruct HA as [-> HB]. rewrite <- HB. eauto.
Qed.

Lemma lk_refines_top c h ops : Forall (tmop_ok c) ops ->
  exists s, run (tm_step c no_hook) (tm_init h, []) ops = Ok (s, lk_run ([], []) ops).
Proof. intros H. apply (lk_refines c ops (tm_init h) [] [] (tm_init_inv c h) H). Qed.

(** ** Hooks that relink timers *)
Definition decs (l : list N) (s : tmst) : tmst :=
  fold_left (fun s x => set_ntick s x (tm_ntick (ts_heap s x) - 1)) l s.

Lemma decs_frame l : forall s, ts_head (decs l s) = ts_head s /\
  forall y, tm_next (ts_heap (decs l s) y) = tm_next (ts_heap s y) /\
            tm_period (ts_heap (decs l s) y) = tm_period (ts_heap s y) /\
            tm_used (ts_heap (decs l s) y) = tm_used (ts_heap s y) /\
            (~ In y l -> tm_ntick (ts_heap (decs l s) y) = tm_ntick (ts_heap s y)).
Proof.
  induction l as [|a l IH]; intros s; [simpl; auto|]. cbn [decs fold_left].
  fold (decs l (set_ntick s a (tm_ntick (ts_heap s a) - 1))).
  destruct (IH (set_ntick s a (tm_ntick (ts_heap s a) - 1))) as [I1 I2]. split; [exact I1|].
  intros y. destruct (I2 y) as (J1 & J2 & J3 & J4).
  rewrite J1, J2, J3, set_ntick_next, set_ntick_used, set_ntick_period. repeat split; auto.
  intros Hn. rewrite J4 by (intros Hi; apply Hn; now right). rewrite set_ntick_ntick.
  destruct (N.eqb_spec y a) as [E1|E1]; auto. subst. exfalso. apply Hn. now left.
Qed.

Lemma decs_in l : forall s y, NoDup l -> In y l ->
  tm_ntick (ts_heap (decs l s) y) = tm_ntick (ts_heap s y) - 1.
Proof.
  induction l as [|a l IH]; intros s y Hnd Hy; [easy|]. inversion Hnd; subst. cbn [decs fold_left].
  fold (decs l (set_ntick s a (tm_ntick (ts_heap s a) - 1))).
  destruct (in_dec N.eq_dec y l) as [Hi|Hi].
  - rewrite IH by auto. rewrite set_ntick_ntick. destruct (N.eqb_spec y a); congruence.
  - destruct (decs_frame l (set_ntick s a (tm_ntick (ts_heap s a) - 1))) as [_ I].
    destruct (I y) as (_ & _ & _ & ->); auto. rewrite set_ntick_ntick.
    destruct Hy as [<-|]; [|tauto]. now rewrite N.eqb_refl.
Qed.

(** Timers with more than one tick left are only decremented. *)
Lemma tm_loop_dec {W} c hook (pst : N -> W -> res W) : forall l s w tprev p rest fuel,
  path (ts_heap s) p (l ++ rest) -> NoDup l ->
  (forall y, In y l -> tm_used (ts_heap s y) = true /\ 1 < tm_ntick (ts_heap s y) < tnt_mod c) ->
  tm_loop c hook pst (length l + fuel) s w tprev p =
  tm_loop c hook pst fuel (decs l s) w (match lasto l with None => tprev | z => z end) (hdo rest).
Proof.
  induction l as [|a l IH]; intros s w tprev p rest fuel Hp Hnd Hl.
  - simpl in *. apply path_hdo in Hp. now subst p.
  - inversion Hnd; subst. destruct Hp as [-> Hp]. destruct (Hl a (or_introl eq_refl)) as [Hu Hn].
    cbn [length Nat.add tm_loop]. rewrite Hu.
    assert (Em : (tm_ntick (ts_heap s a) + tnt_mod c - 1) mod tnt_mod c = tm_ntick (ts_heap s a) - 1).
    { replace (tm_ntick (ts_heap s a) + tnt_mod c - 1) with (tm_ntick (ts_heap s a) - 1 + 1 * tnt_mod c) by lia.
      rewrite N.mod_add by lia. apply N.mod_small. lia. }
    rewrite Em. replace (tm_ntick (ts_heap s a) - 1 =? 0) with false by (symmetry; apply N.eqb_neq; lia).
    rewrite set_ntick_next.
    rewrite (IH (set_ntick s a (tm_ntick (ts_heap s a) - 1)) w (Some a) _ rest fuel); auto.
    + cbn [decs fold_left]. destruct l as [|b l]; [reflexivity|]. rewrite lasto_cons.
      destruct (lasto_some b l) as [z ->]. reflexivity.
    + eapply path_ext; [exact Hp|]. intros; apply set_ntick_next.
    + intros y Hy. rewrite set_ntick_used, set_ntick_ntick.
      destruct (N.eqb_spec y a); [congruence|]. apply Hl. now right.
Qed.

Lemma self_restart_tick c s pre x post n p fuel :
  path (ts_heap s) (ts_head s) (pre ++ x :: post) -> NoDup (pre ++ x :: post) ->
  (forall y, In y (pre ++ x :: post) -> tm_used (ts_heap s y) = true) ->
  tm_ntick (ts_heap s x) = 1 -> tm_period (ts_heap s x) = 0 -> 1 < tnt_mod c ->
  (forall y, In y pre -> 2 < tm_ntick (ts_heap s y) < tnt_mod c) ->
  (forall y, In y post -> 1 < tm_ntick (ts_heap s y) < tnt_mod c) ->
  0 < n ->
  exists s', tm_tick c (self_restart c x n p) tm_post (length pre + (1 + (length (pre ++ post) + fuel))) s [] = Ok (s', [x]) /\
    path (ts_heap s') (ts_head s') (x :: pre ++ post) /\
    tm_ntick (ts_heap s' x) = n /\
    (forall y, In y pre -> tm_ntick (ts_heap s' y) = tm_ntick (ts_heap s y) - 2) /\
    (forall y, In y post -> tm_ntick (ts_heap s' y) = tm_ntick (ts_heap s y) - 1).
Proof.
  intros Hp Hnd Hu Hx1 Hx0 HM Hpre Hpost Hn. unfold tm_tick.
  assert (Hnx : ~ In x (pre ++ post)) by now apply NoDup_remove_2 in Hnd.
  assert (HndP : NoDup (pre ++ post)) by now apply NoDup_remove_1 in Hnd.
  assert (Hndpre : NoDup pre).
  { clear - HndP. induction pre; constructor; inversion HndP; subst; auto. intros Hi; apply H1, in_app_iff; auto. }
  assert (Hxpre : ~ In x pre) by (intros Hi; apply Hnx, in_app_iff; auto).
  rewrite (tm_loop_dec c (self_restart c x n p) tm_post pre s [] None (ts_head s) (x :: post)); auto.
  2:{ intros y Hy. split; [apply Hu, in_app_iff; auto|]. specialize (Hpre y Hy). lia. }
  destruct (decs_frame pre s) as [F1 F2]. set (s1 := decs pre s) in *.
  assert (E1 : match lasto pre with None => None | z => z end = lasto pre) by (destruct (lasto pre); reflexivity).
  rewrite E1. cbn [hdo Nat.add tm_loop].
  destruct (F2 x) as (X1 & X2 & X3 & X4). specialize (X4 Hxpre).
  rewrite X3, (Hu x) by (apply in_app_iff; right; now left). rewrite X4, Hx1.
  replace ((1 + tnt_mod c - 1) mod tnt_mod c) with 0
    by (replace (1 + tnt_mod c - 1) with (tnt_mod c) by lia; now rewrite N.mod_same by lia).
  rewrite N.eqb_refl. rewrite set_ntick_period, X2, Hx0, N.eqb_refl.
  set (s2 := set_ntick s1 x 0).
  assert (Hp2 : path (ts_heap s2) (ts_head s2) (pre ++ x :: post)).
  { eapply path_ext; [change (ts_head s2) with (ts_head s1); rewrite F1; exact Hp|].
    intros y _. unfold s2. rewrite set_ntick_next. apply F2. }
  destruct (rem_from_list_spec s2 pre x post Hp2 Hnd) as (s3 & E3 & Hp3 & Hn3 & Hy3).
  rewrite E3. cbn [bind]. unfold self_restart at 1. rewrite N.eqb_refl. unfold tm_start.
  replace (negb (n =? 0)) with true by lia. rewrite rassert_true. cbn [bind].
  destruct (Hy3 x) as (_ & _ & Hux). rewrite N.eqb_refl in Hux. rewrite Hux. cbn [bind tm_post app].
  set (s4 := set_used (set_head (set_next (set_tmr s3 x (mkTmr (tm_next (ts_heap s3 x)) n p false)) x _) _) x true).
  assert (Hnx4 : tm_next (ts_heap s4 x) = ts_head s3).
  { unfold s4. simpl. repeat (rewrite N.eqb_refl; simpl). reflexivity. }
  assert (Hx4 : tm_ntick (ts_heap s4 x) = n).
  { unfold s4. simpl. repeat (rewrite N.eqb_refl; simpl). reflexivity. }
  assert (Hy4 : forall y, y <> x -> ts_heap s4 y = ts_heap s3 y).
  { intros y Hy. unfold s4. simpl. apply N.eqb_neq in Hy. rewrite Hy. simpl. reflexivity. }
  assert (Hp4 : path (ts_heap s4) (ts_head s3) (pre ++ post)).
  { eapply path_ext; [exact Hp3|]. intros y Hy. rewrite Hy4; auto. intros ->; auto. }
  rewrite Hnx4.
  assert (K : forall y, y <> x -> tm_ntick (ts_heap s4 y) = tm_ntick (ts_heap s1 y) /\
                          tm_used (ts_heap s4 y) = tm_used (ts_heap s1 y)).
  { intros y Hy. rewrite Hy4 by auto. destruct (Hy3 y) as (A1 & A2 & A3). rewrite A1, A3.
    apply N.eqb_neq in Hy. rewrite Hy. unfold s2. rewrite set_ntick_ntick, set_ntick_used, Hy. auto. }
  assert (Kpre : forall y, In y pre -> tm_ntick (ts_heap s4 y) = tm_ntick (ts_heap s y) - 1).
  { intros y Hy. destruct (K y) as [-> _]; [intros ->; auto|]. now apply decs_in. }
  assert (Kpost : forall y, In y post -> tm_ntick (ts_heap s4 y) = tm_ntick (ts_heap s y)).
  { intros y Hy. destruct (K y) as [-> _]; [intros ->; apply Hnx, in_app_iff; auto|]. apply F2.
    intros Hi. clear - HndP Hi Hy. induction pre as [|a pre IH]; [easy|]. inversion HndP; subst.
    destruct Hi as [->|Hi]; [apply H1, in_app_iff; auto|auto]. }
  rewrite (tm_loop_dec c (self_restart c x n p) tm_post (pre ++ post) s4 [x] (lasto pre) (ts_head s3) []); auto.
  - exists (decs (pre ++ post) s4). destruct (decs_frame (pre ++ post) s4) as [G1 G2]. cbn [hdo].
    split; [destruct fuel; reflexivity|]. split; [|split; [|split]].
    + rewrite G1. cbn [path app]. split; [reflexivity|].
      destruct (G2 x) as (-> & _). rewrite Hnx4. eapply path_ext; [exact Hp4|]. intros; apply G2.
    + destruct (G2 x) as (_ & _ & _ & ->); auto.
    + intros y Hy. rewrite decs_in by (auto; apply in_app_iff; auto). rewrite Kpre by auto. lia.
    + intros y Hy. rewrite decs_in by (auto; apply in_app_iff; auto). rewrite Kpost by auto. lia.
  - now rewrite app_nil_r.
  - intros y Hy. assert (Hyx : y <> x) by (intros ->; auto). destruct (K y Hyx) as [_ ->].
    destruct (F2 y) as (_ & _ & -> & _). split.
    + apply Hu. apply in_app_iff in Hy. apply in_app_iff. simpl. tauto.
    + apply in_app_iff in Hy as [Hy|Hy]; [rewrite Kpre by auto; specialize (Hpre y Hy); lia|].
      rewrite Kpost by auto. auto.
Qed.

(** Two periodic timers that point at each other are never left by the loop. *)
Lemma tm_loop_cycle {W} c (pst : N -> W -> res W) a b : (forall t w, exists w', pst t w = Ok w') ->
  forall fuel s w tprev t,
  t = a \/ t = b ->
  tm_next (ts_heap s a) = Some b -> tm_next (ts_heap s b) = Some a ->
  tm_used (ts_heap s a) = true -> tm_used (ts_heap s b) = true ->
  tm_period (ts_heap s a) <> 0 -> tm_period (ts_heap s b) <> 0 ->
  tm_loop c (fun _ s w => Ok (s, w)) pst fuel s w tprev (Some t) = Fault FFuel.
Proof.
  intros Hps. induction fuel as [|fuel IH]; intros s w tprev t Ht Ha Hb Ua Ub Pa Pb; [reflexivity|].
  cbn [tm_loop]. assert (Ut : tm_used (ts_heap s t) = true) by (destruct Ht; subst; auto).
  assert (Pt : tm_period (ts_heap s t) <> 0) by (destruct Ht; subst; auto).
  assert (Nt : exists u, tm_next (ts_heap s t) = Some u /\ (u = a \/ u = b)) by (destruct Ht; subst; eauto).
  destruct Nt as (u & Nt & Hu). rewrite Ut.
  destruct (_ =? 0).
  - rewrite set_ntick_period. apply N.eqb_neq in Pt. rewrite Pt. cbn [bind].
    destruct (Hps t w) as [w' ->]. cbn [bind]. rewrite !set_ntick_next, Nt.
    apply IH; rewrite ?set_ntick_next, ?set_ntick_used, ?set_ntick_period; auto.
  - rewrite set_ntick_next, Nt.
    apply IH; rewrite ?set_ntick_next, ?set_ntick_used, ?set_ntick_period; auto.
Qed.

Lemma C28_proof c hook : hook_ok c hook ->
  forall h ops0 s led rs0 t n ops s' r rs, hook_spares t hook ->
  Forall (tmop_ok c) ops0 -> Forall (tmop_ok c) (TStart t n 0 :: ops) ->
  run (tm_step c hook) (tm_init h, []) ops0 = Ok ((s, led), rs0) -> In t led ->
  run (tm_step c hook) (s, led) (TStart t n 0 :: ops) = Ok (s', r :: rs) ->
  Forall (spares t) ops ->
  forall j ps, nth_error (ticks_of rs) j = Some ps ->
  count_occ N.eq_dec ps t = if N.of_nat j + 1 =? n then 1%nat else 0%nat.
Proof.
  intros Hh h ops0 s led rs0 t n ops s' r rs Hq Ho0 Ho Hr0 Hin Hr Hsp j ps Hj.
  rewrite (hist_after_start c hook Hh h ops0 s led rs0 t n 0 ops s' r rs Hq Ho0 Ho Hr0 Hin Hr Hsp j ps Hj).
  rewrite ticked_oneshot; auto. inversion Ho as [|? ? Hx _]; subst. destruct Hx; lia.
Qed.

Lemma C29_proof c hook : hook_ok c hook ->
  forall h ops0 s led rs0 t n p ops s' r rs, hook_spares t hook -> 0 < p ->
  Forall (tmop_ok c) ops0 -> Forall (tmop_ok c) (TStart t n p :: ops) ->
  run (tm_step c hook) (tm_init h, []) ops0 = Ok ((s, led), rs0) -> In t led ->
  run (tm_step c hook) (s, led) (TStart t n p :: ops) = Ok (s', r :: rs) ->
  Forall (spares t) ops ->
  forall j ps, nth_error (ticks_of rs) j = Some ps ->
  count_occ N.eq_dec ps t =
    if (n <=? N.of_nat j + 1) && ((N.of_nat j + 1 - n) mod p =? 0) then 1%nat else 0%nat.
Proof.
  intros Hh h ops0 s led rs0 t n p ops s' r rs Hq Hp Ho0 Ho Hr0 Hin Hr Hsp j ps Hj.
  rewrite (hist_after_start c hook Hh h ops0 s led rs0 t n p ops s' r rs Hq Ho0 Ho Hr0 Hin Hr Hsp j ps Hj).
  rewrite ticked_periodic; auto. inversion Ho as [|? ? Hx _]; subst. destruct Hx; lia.
Qed.

Lemma C33_proof c hook : hook_ok c hook -> (forall t, hook_spares t hook) ->
  forall h ops s led rs, Forall (tmop_ok c) ops ->
  run (tm_step c hook) (tm_init h, []) ops = Ok ((s, led), rs) ->
  forall t, agrees t None (combine ops rs).
Proof. intros Hh Hq h ops s led rs Ho Hr t. eapply hist_agrees; eauto. Qed.
