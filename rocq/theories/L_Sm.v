(** The engine refines the statechart semantics: lemmas. *)
From Verif Require Import Base L_Base M_Sm S_Sm.

Lemma say_nil d : say d [] = d.
Proof. destruct d. unfold say. cbn. rewrite app_nil_r. reflexivity. Qed.
Lemma say_say d a b : say (say d a) b = say d (a ++ b).
Proof. destruct d. unfold say. cbn. rewrite app_assoc. reflexivity. Qed.

Section Sm.
Context (c : smcfg) (M : machine) (grd : nat -> evt -> list xev -> bool).
Notation parent_of := (parent_of M).
Notation chain := (chain M).
Notation outer := (outer M).

(** * Data accesses *)
Lemma vx_ok v x : vx M v = Ok x -> nth_error M v = Some x.
Proof. unfold vx. destruct (nth_error M v); [injection 1 as ->; reflexivity | discriminate]. Qed.
Lemma vxo_ok v x : vxo M v = Ok x -> exists i, v = Some i /\ nth_error M i = Some x.
Proof. destruct v as [i|]; cbn; [| discriminate]. intros E%vx_ok. eauto. Qed.
Lemma st_parent_ok s x p : nth_error M s = Some x -> st_parent x = Ok p -> parent_of s = Some p.
Proof. unfold S_Sm.parent_of. intros ->. destruct x; cbn; try discriminate; injection 1 as ->; reflexivity. Qed.
Lemma st_parent_of s x p : nth_error M s = Some x -> parent_of s = Some p -> st_parent x = Ok p.
Proof. unfold S_Sm.parent_of. intros ->. destruct x; cbn; try discriminate; injection 1 as ->; reflexivity. Qed.
Lemma st_exit_ok s x a : nth_error M s = Some x -> st_exit x = Ok a -> exit_of M s = a.
Proof. unfold exit_of. intros ->. destruct x; cbn; try discriminate; injection 1 as ->; reflexivity. Qed.
Lemma st_enter_ok s x a : nth_error M s = Some x -> st_enter x = Ok a -> entry_of M s = a.
Proof. unfold entry_of. intros ->. destruct x; cbn; try discriminate; injection 1 as ->; reflexivity. Qed.
Lemma st_tbl_ok s x a : nth_error M s = Some x -> st_tbl x = Ok a -> table_of M s = a.
Proof. unfold table_of. intros ->. destruct x; cbn; try discriminate; injection 1 as ->; reflexivity. Qed.

Lemma update_parent_ok d s p : update_parent M d s = Ok p -> exists q, parent_of s = Some q /\ p = outer (d_dyp d) q.
Proof.
  unfold update_parent. intros H. apply bind_ok in H as (x & Hx%vx_ok & H).
  apply bind_ok in H as (q & Hq & H). pose proof (st_parent_ok _ _ _ Hx Hq) as Hp. exists q. split; [exact Hp|].
  destruct q as [q|]; [| injection H as <-; reflexivity].
  apply bind_ok in H as (y & Hy%vx_ok & H). unfold S_Sm.outer, is_rsm. rewrite Hy.
  destruct y; injection H as <-; reflexivity.
Qed.

(** * Chains *)
Lemma chain_fun dy s l1 : chain dy s l1 -> forall l2, chain dy s l2 -> l1 = l2.
Proof.
  induction 1 as [| s p l Hp H IH]; intros l2 H2; inversion H2; subst; [reflexivity|].
  f_equal. apply IH. congruence.
Qed.
Lemma chain_split dy s l : chain dy s l -> forall a x b, l = a ++ x :: b -> chain dy (Some x) (x :: b).
Proof.
  induction 1 as [| s p l Hp H IH]; intros a x b E; [destruct a; discriminate|].
  destruct a as [| y a]; cbn in E.
  - injection E as -> ->. econstructor; eauto.
  - injection E as -> E. eauto.
Qed.
Lemma chain_In dy s l x : chain dy s l -> In x l -> exists a b, l = a ++ x :: b /\ chain dy (Some x) (x :: b).
Proof. intros H Hx. apply in_split in Hx as (a & b & ->). exists a, b. split; [reflexivity|]. eapply chain_split; eauto. Qed.
Lemma chain_nodup dy s l : chain dy s l -> NoDup l.
Proof.
  assert (forall n s l, (length l <= n)%nat -> chain dy s l -> NoDup l) as G; [| eapply G; eauto].
  clear. induction n as [| n IH]; intros s l Hn H.
  - destruct l; [constructor | cbn in Hn; lia].
  - inversion H as [| s' p l' Hp Hc E1 E2]; subst; [constructor|]. constructor; [| eapply IH; eauto; cbn in Hn; lia].
    intros Hi. destruct (chain_In _ _ _ _ Hc Hi) as (a & b & E & Hc').
    pose proof (chain_fun _ _ _ Hc' _ H) as E'. injection E' as ->.
    apply (f_equal (@length _)) in E. rewrite app_length in E. cbn in E. lia.
Qed.

Section Tidy.
Context (rank : nat -> nat) (T : tidy M rank).

Lemma chain_ex dy (Hd : forall r m, dy r = Some m -> exists en ex p tbl e, nth_error M m = Some (VSubm en ex p tbl e r)) s :
  parent_of s <> None -> exists l, chain dy (Some s) (s :: l).
Proof using M rank T.
  clear c grd. assert (forall n s, (rank s <= n)%nat -> parent_of s <> None -> exists l, chain dy (Some s) (s :: l)) as G; [| eauto].
  clear s. induction n as [| n IH]; intros s Hn Hs; destruct (parent_of s) as [[q|]|] eqn:E; try congruence.
  - destruct (ty_par _ _ T _ _ E). lia.
  - exists []. econstructor; [exact E | constructor].
  - destruct (ty_par _ _ T _ _ E) as [Hq Hr].
    assert (exists l, chain dy (outer dy (Some q)) l) as [l Hl].
    { cbn. destruct (is_rsm M q) eqn:Er.
      - destruct (dy q) as [m|] eqn:Em; [| exists []; constructor].
        destruct (Hd _ _ Em) as (en & ex & p & tbl & e & Hm). pose proof (ty_sub _ _ T _ _ _ _ _ _ _ Hm) as Hrk.
        destruct (IH m) as [l Hl]; [lia | unfold S_Sm.parent_of; rewrite Hm; discriminate |]. eauto.
      - destruct (IH q) as [l Hl]; [lia | | eauto].
        unfold is_comp in Hq. unfold S_Sm.parent_of. destruct (nth_error M q) as [[]|]; cbn in Hq; congruence. }
    exists l. econstructor; eauto.
  - exists []. econstructor; [exact E | constructor].
Qed.
End Tidy.

(** * Selection *)
Notation denied := (denied grd).
Notation enabled := (enabled grd).
Notation first_of := (first_of grd).

Lemma denied_app pe d a dm : denied pe d a dm -> forall b d', denied pe dm b d' -> denied pe d (a ++ b) d'.
Proof. induction 1 as [| d t g r d' Hg Hf H IH]; intros b d'' Hb; [exact Hb|]. cbn. econstructor; eauto. Qed.
Lemma denied_app_inv pe a : forall d b d', denied pe d (a ++ b) d' -> exists dm, denied pe d a dm /\ denied pe dm b d'.
Proof.
  induction a as [| t a IH]; intros d b d' H; [exists d; split; [constructor | exact H]|].
  cbn in H. inversion H; subst. edestruct IH as (dm & Ha & Hb); [eassumption|]. exists dm. split; [econstructor; eauto | exact Hb].
Qed.
Lemma denied_ram pe d l d' : denied pe d l d' -> exists x, d' = say d x.
Proof.
  induction 1 as [| d t g r d' Hg Hf H IH]; [exists []; symmetry; apply say_nil|].
  destruct IH as [x ->]. rewrite say_say. eauto.
Qed.
Lemma enabled_ram pe d t d' : enabled pe d t d' -> exists x, d' = say d x.
Proof.
  unfold S_Sm.enabled. destruct (t_grd t); [intros [_ ->]; eauto | intros ->; exists []; symmetry; apply say_nil].
Qed.
Lemma first_ram pe d l t d' : first_of pe d l t d' -> exists x, d' = say d x.
Proof.
  intros (pre & post & dm & _ & H1 & H2). destruct (denied_ram _ _ _ _ H1) as [x ->].
  destruct (enabled_ram _ _ _ _ H2) as [y ->]. rewrite say_say. eauto.
Qed.

Lemma find_trn_ok pe sig tbl : forall d,
  match find_trn grd d pe tbl sig with
  | (d', None) => denied pe d (filter (fun t => (t_evt t =? sig)%N) tbl) d'
  | (d', Some t) => first_of pe d (filter (fun t => (t_evt t =? sig)%N) tbl) t d'
  end.
Proof.
  induction tbl as [| t r IH]; intros d; cbn; [constructor|].
  destruct (t_evt t =? sig)%N; [| apply IH].
  destruct (t_grd t) as [g|] eqn:Eg.
  - destruct (grd g pe (d_log d)) eqn:Eb.
    + exists [], (filter (fun t => (t_evt t =? sig)%N) r), d. split; [reflexivity|]. split; [constructor|].
      unfold S_Sm.enabled. rewrite Eg. auto.
    + specialize (IH (say d [XGrd g pe false])). destruct (find_trn _ _ _ _ _) as [d' [t'|]].
      * destruct IH as (pre & post & dm & E & H1 & H2). exists (t :: pre), post, dm. rewrite E. split; [reflexivity|].
        split; [econstructor; eauto | exact H2].
      * econstructor; eauto.
  - exists [], (filter (fun t => (t_evt t =? sig)%N) r), d. split; [reflexivity|]. split; [constructor|].
    unfold S_Sm.enabled. rewrite Eg. reflexivity.
Qed.

Lemma find_branch_ok pe tbl : forall d,
  match find_branch grd d pe tbl with
  | (d', None) => denied pe d (guarded tbl) d'
  | (d', Some t) => first_of pe d (guarded tbl) t d'
  end.
Proof.
  induction tbl as [| t r IH]; intros d; cbn; [constructor|].
  destruct (t_grd t) as [g|] eqn:Eg; [| apply IH].
  destruct (grd g pe (d_log d)) eqn:Eb.
  - exists [], (guarded r), d. split; [reflexivity|]. split; [constructor|]. unfold S_Sm.enabled. rewrite Eg. auto.
  - specialize (IH (say d [XGrd g pe false])). destruct (find_branch _ _ _ _) as [d' [t'|]].
    + destruct IH as (pre & post & dm & E & H1 & H2). exists (t :: pre), post, dm. unfold guarded in E. rewrite E. split; [reflexivity|].
      split; [econstructor; eauto | exact H2].
    + econstructor; eauto.
Qed.

Lemma find_up_ok pe fuel : forall d s d' r l,
  find_up M grd fuel d s pe = Ok (d', r) -> chain (d_dyp d) s l ->
  match r with
  | None => nothing M grd pe d l d'
  | Some (src, t) => selected M grd pe d l src t d'
  end.
Proof.
  induction fuel as [| f IH]; intros d s d' r l H Hc; destruct s as [s|]; cbn in H; try discriminate.
  1, 3: injection H as <- <-; inversion Hc; subst; constructor.
  inversion Hc as [| s' p l' Hp Hl]; subst.
  apply bind_ok in H as (x & Hx%vx_ok & H). apply bind_ok in H as (tbl & Ht & H).
  pose proof (st_tbl_ok _ _ _ Hx Ht) as Et. pose proof (find_trn_ok pe (ev_sig pe) tbl d) as F. rewrite <- Et in F.
  rewrite <- Et in H. destruct (find_trn _ _ _ _ _) as [d1 [t|]].
  - injection H as <- <-. exists [], l', d. split; [reflexivity|]. split; [constructor | exact F].
  - apply bind_ok in H as (p' & Hp' & H). apply update_parent_ok in Hp' as (q & Hq & ->).
    assert (q = p) by congruence; subst q.
    destruct (denied_ram _ _ _ _ F) as [x' E1].
    assert (d_dyp d1 = d_dyp d) as Ed by (rewrite E1; reflexivity). rewrite Ed in H.
    pose proof (IH _ _ _ _ _ H ltac:(rewrite Ed; exact Hl)) as G.
    destruct r as [[src t]|].
    + destruct G as (inn & out & dm & -> & G1 & G2). exists (s :: inn), out, dm. split; [reflexivity|].
      split; [| exact G2]. cbn [flat_map]. eapply denied_app; [exact F | exact G1].
    + unfold nothing. cbn [flat_map]. eapply denied_app; [exact F | exact G].
Qed.
End Sm.
