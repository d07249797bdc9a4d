(** Blinky: one state of the LED after the other. *)
From Verif Require Import Base L_Base M_Sm S_SmWf S_SmRun L_SmArr M_SmFlat M_Tmr M_Blinky S_Blinky.
Local Open Scope N_scope.

Definition z2 : arrays := fun _ => ([0; 0]%nat, [None; None]).
Lemma z2_ok : arrays_ok bsm z2.
Proof. intros k. split; reflexivity. Qed.
Definition st_of (l : led) : nat := match l with On => ledOn | Off => ledOff end.
Definition fn_of (l : led) : nat := match l with On => f_on | Off => f_off end.
Definition d_of (l : led) : dyn := mkD (Some (st_of l)) (fun _ => None) (fun _ => None) [].
Definition brief (r : res (dyn * rcode)) : res (option nat * list nat) :=
  do (d, _) <- r; Ok (d_st d, flat_map fun_of (d_log d)).
Definition raw (v : version) (k : scratch) (d : dyn) (e : N) : res (dyn * rcode) :=
  match v with
  | Cross => flat_dispatch bsm m_cross (fun _ _ _ => true) ledOn (Some f_init) d (mkEv e 0) (k_al k) (k_ixn k)
  | X86 => dispatch bsm m_x86 (fun _ _ _ => true) 10 ledOn (Some f_init) d (mkEv e 0) (k_ars k)
  end.
Lemma dispatch_raw v on off k s e : b_dispatch v on off k s e =
  do (st, fs) <- brief (raw v k (mkD (b_st s) (fun _ => None) (fun _ => None) []) e);
  do_funs v on off (mkBl st (b_tm s) (b_q s) (b_cnt s)) fs.
Proof.
  unfold b_dispatch, raw, brief. cbv zeta. destruct v.
  - destruct (flat_dispatch _ _ _ _ _ _ _ _ _) as [[d r]|]; reflexivity.
  - destruct (dispatch _ _ _ _ _ _ _ _ _) as [[d r]|]; reflexivity.
Qed.

Lemma raw_tout v k l : scratch_ok k -> brief (raw v k (d_of l) sig_tout) = Ok (Some (st_of (other l)), [fn_of (other l)]).
Proof.
  intros [H1 H2]. destruct v; unfold raw.
  - destruct k as [al ixn ars]. cbn in H1 |- *. destruct al as [|a [|b [|]]]; try discriminate. destruct l; reflexivity.
  - rewrite (dispatch_arr bsm m_x86 (fun _ _ _ => true) 10 ledOn (Some f_init) (d_of l) (mkEv sig_tout 0) (k_ars k) z2 H2 z2_ok) by discriminate.
    destruct l; vm_compute; reflexivity.
Qed.
Lemma raw_term v k l : scratch_ok k -> brief (raw v k (d_of l) sig_term) = Ok (Some (st_of l), []).
Proof.
  intros [H1 H2]. destruct v; unfold raw.
  - destruct k as [al ixn ars]. cbn in H1 |- *. destruct al as [|a [|b [|]]]; try discriminate. destruct l; reflexivity.
  - rewrite (dispatch_arr bsm m_x86 (fun _ _ _ => true) 10 ledOn (Some f_init) (d_of l) (mkEv sig_term 0) (k_ars k) z2 H2 z2_ok) by discriminate.
    destruct l; vm_compute; reflexivity.
Qed.
Lemma x_bl_wf : wf_machine bsm m_x86 (fun _ => O) (fun _ => None) = true.
Proof. reflexivity. Qed.
Definition init_fns (v : version) : list nat := match v with Cross => [f_init] | X86 => [f_init; f_on] end.
Lemma raw_init v k : scratch_ok k ->
  brief (raw v k (mkD None (fun _ => None) (fun _ => None) []) (sig_creation bsm)) = Ok (Some ledOn, init_fns v).
Proof.
  intros [H1 H2]. destruct v; unfold raw.
  - destruct k as [al ixn ars]. cbn in H1 |- *. destruct al as [|a [|b [|]]]; try discriminate.
    destruct ixn as [|n]; reflexivity.
  - rewrite (init_arr bsm m_x86 (fun _ _ _ => true) (fun _ => O) (fun _ => None) 10 ledOn (Some f_init)
      (mkD None (fun _ => None) (fun _ => None) []) (mkEv (sig_creation bsm) 0) (k_ars k) z2 x_bl_wf).
    + vm_compute. reflexivity.
    + vm_compute. reflexivity.
    + constructor; cbn; intros; discriminate.
    + exact H2.
    + exact z2_ok.
Qed.

(** * The timer *)
Inductive tstate := Armed (k : N) | Idle.
Definition tm_is (t : tmst) (x : tstate) : Prop :=
  match x with
  | Armed k => ts_head t = Some 0 /\ ts_heap t 0 = mkTmr None k 0 true /\ 1 <= k < 65536
  | Idle => ts_head t = None /\ tm_used (ts_heap t 0) = false
  end.
Lemma arm t n : tm_is t Idle -> 1 <= n < 65536 -> exists t', tm_start btm t 0 n 0 = Ok t' /\ tm_is t' (Armed n).
Proof.
  intros [H1 H2] Hn. unfold tm_start. cbn [tm_asrt btm]. rewrite (proj2 (N.eqb_neq n 0)) by lia. cbn [negb rassert bind]. cbv zeta.
  rewrite H2. eexists. split; [reflexivity|].
  unfold tm_is, set_used, set_head, set_next, set_tmr. cbn. rewrite H1. auto.
Qed.
Lemma init_idle h : exists t, tm_init_ 1 (tm_init h) 0 = Ok t /\ tm_is t Idle.
Proof.
  unfold tm_init_, tm_init, search_and_remove. cbn. destruct (tm_used (h 0)); cbn; eexists; (split; [reflexivity|]); split; reflexivity.
Qed.
Lemma tick_idle {W} (post : N -> W -> res W) t w : tm_is t Idle -> tm_tick btm (fun _ t w => Ok (t, w)) post 2 t w = Ok (t, w).
Proof. intros [H _]. unfold tm_tick. rewrite H. reflexivity. Qed.
Lemma tick_last {W} (post : N -> W -> res W) t w : tm_is t (Armed 1) ->
  exists t', tm_is t' Idle /\ tm_tick btm (fun _ t w => Ok (t, w)) post 2 t w = do w <- post 0 w; Ok (t', w).
Proof.
  intros (H1 & H2 & _). unfold tm_tick. rewrite H1. cbn [tm_loop]. rewrite H2. cbn [tm_used tm_ntick tnt_mod btm].
  change ((1 + 65536 - 1) mod 65536) with 0. cbn [N.eqb].
  unfold set_ntick, set_tmr, rem_from_list. rewrite H2. cbn. rewrite H1. cbn.
  eexists. split; [|destruct (post 0 w); reflexivity]. split; reflexivity.
Qed.
Lemma tick_more {W} (post : N -> W -> res W) t w k : tm_is t (Armed k) -> k <> 1 ->
  exists t', tm_is t' (Armed (k - 1)) /\ tm_tick btm (fun _ t w => Ok (t, w)) post 2 t w = Ok (t', w).
Proof.
  intros (H1 & H2 & H3) Hk. unfold tm_tick. rewrite H1. cbn [tm_loop]. rewrite H2. cbn [tm_used tm_ntick tnt_mod btm].
  replace ((k + 65536 - 1) mod 65536) with (k - 1).
  2:{ replace (k + 65536 - 1) with ((k - 1) + 1 * 65536) by lia. rewrite N.mod_add by lia. symmetry. apply N.mod_small. lia. }
  rewrite (proj2 (N.eqb_neq (k - 1) 0)) by lia. unfold set_ntick, set_tmr. rewrite H2. cbn.
  eexists. split; [|reflexivity]. split; [exact H1|]. split; [reflexivity|lia].
Qed.

(** * One step *)
Definition nt (q : list N) : nat := count_occ N.eq_dec q sig_tout.
Definition nz (q : list N) : nat := count_occ N.eq_dec q sig_term.
Definition known (q : list N) : Prop := Forall (fun e => e = sig_tout \/ e = sig_term) q.
Lemma known_len q : known q -> length q = (nt q + nz q)%nat.
Proof. induction 1 as [|e q He Hq IH]; [reflexivity|]. cbn. rewrite IH. destruct He as [-> | ->]; cbn; unfold nt, nz; lia. Qed.
(** After [now] ticks, LED [l] set to change at [due]. *)
Record inv (now : N) (l : led) (due : N) (s : bl) : Prop := {
  i_st : b_st s = Some (st_of l);
  i_q : known (b_q s);
  i_tm : (exists k, tm_is (b_tm s) (Armed k) /\ due = now + k /\ nt (b_q s) = O) \/
         (tm_is (b_tm s) Idle /\ due <= now /\ nt (b_q s) = 1%nat);
  i_cnt : b_cnt s < 256 }.

Section Step.
Context (v : version) (on off : N) (cap : nat).
Context (Hon : 1 <= on < 65536) (Hoff : 1 <= off < 65536).
Lemma span_ok l : 1 <= span on off l < 65536.
Proof. destruct l; auto. Qed.

Lemma put_ok q e : (length q < cap)%nat -> b_put cap q e = Ok (q ++ [e]).
Proof. intros H. unfold b_put. rewrite (proj2 (Nat.ltb_lt _ _) H). reflexivity. Qed.
Lemma nt_snoc q e : nt (q ++ [e]) = (nt q + (if N.eq_dec e sig_tout then 1 else 0))%nat.
Proof. unfold nt. rewrite count_occ_app. cbn. destruct (N.eq_dec e sig_tout); reflexivity. Qed.
Lemma nz_snoc q e : nz (q ++ [e]) = (nz q + (if N.eq_dec e sig_term then 1 else 0))%nat.
Proof. unfold nz. rewrite count_occ_app. cbn. destruct (N.eq_dec e sig_term); reflexivity. Qed.
Lemma known_snoc q e : known q -> e = sig_tout \/ e = sig_term -> known (q ++ [e]).
Proof. intros H1 H2. apply Forall_app. auto. Qed.

Definition cnt_after (n : N) (xs : list led) : N := (n + N.of_nat (length (filter is_on xs))) mod 256.

Lemma start_ok k h : scratch_ok k -> exists s, b_start v on off k h = Ok (s, [On]) /\ inv 0 On on s /\ b_q s = [] /\ b_cnt s = 1.
Proof.
  intros Hk. unfold b_start. rewrite dispatch_raw. cbn [b_st b_tm b_q b_cnt]. rewrite (raw_init v k Hk). cbn [bind].
  destruct (init_idle h) as (t & E & Ht). destruct (arm t on Ht Hon) as (t' & E' & Ht').
  destruct v; cbn [init_fns do_funs do_fun f_init f_on Nat.eqb]; unfold do_init; cbn [b_tm b_st b_q b_cnt]; rewrite E; cbn [bind];
    unfold do_on; cbn [b_tm b_st b_q b_cnt app]; rewrite E'; cbn [bind app]; eexists; (split; [reflexivity|]); split; try (split; reflexivity);
    constructor; cbn [b_st b_tm b_q b_cnt]; try reflexivity; try (constructor; fail); left; exists on; auto.
Qed.

Lemma do_led l s : tm_is (b_tm s) Idle -> exists t', do_funs v on off s [fn_of l] =
  Ok (mkBl (b_st s) t' (b_q s) (match l with On => (b_cnt s + 1) mod 256 | Off => b_cnt s end), [l]) /\ tm_is t' (Armed (span on off l)).
Proof.
  intros Ht. destruct (arm (b_tm s) (span on off l) Ht (span_ok l)) as (t' & E & Ht'). exists t'. split; [|exact Ht'].
  destruct l; cbn [do_funs fn_of do_fun f_on f_off f_init Nat.eqb span] in *; [unfold do_on | unfold do_off]; rewrite E; reflexivity.
Qed.

(** A tick. *)
Lemma tick_ok now l due s : inv now l due s -> (nz (b_q s) < cap)%nat ->
  exists s', b_step v on off cap s BTick = Ok (s', []) /\ inv (now + 1) l due s' /\ nz (b_q s') = nz (b_q s) /\ b_cnt s' = b_cnt s.
Proof.
  intros [I1 I2 I3 I4] Hc. cbn [b_step]. destruct I3 as [(k & Hk & -> & Hn) | (Ht & Hd & Hn)].
  - destruct (N.eq_dec k 1) as [-> | Hk1].
    + destruct (tick_last (fun _ q => b_put cap q sig_tout) (b_tm s) (b_q s) Hk) as (t' & Ht' & E). rewrite E.
      rewrite put_ok by (rewrite known_len; auto; lia). cbn [bind]. eexists. split; [reflexivity|]. cbn [b_q b_cnt].
      split; [|split; [rewrite nz_snoc; cbn; lia | reflexivity]].
      constructor; cbn [b_st b_tm b_q b_cnt]; auto.
      * apply known_snoc; auto.
      * right. split; [exact Ht'|]. split; [lia|]. rewrite nt_snoc, Hn. reflexivity.
    + destruct (tick_more (fun _ q => b_put cap q sig_tout) (b_tm s) (b_q s) k Hk Hk1) as (t' & Ht' & E). rewrite E. cbn [bind].
      eexists. split; [reflexivity|]. cbn [b_q b_cnt]. split; [|auto].
      constructor; cbn [b_st b_tm b_q b_cnt]; auto. left. exists (k - 1). split; [exact Ht'|]. split; [|exact Hn].
      destruct Hk as (_ & _ & Hk). lia.
  - rewrite tick_idle by exact Ht. cbn [bind]. eexists. split; [reflexivity|]. cbn [b_q b_cnt]. split; [|auto].
    constructor; cbn [b_st b_tm b_q b_cnt]; auto. right. split; [exact Ht|]. split; [lia|exact Hn].
Qed.
(** ESC. *)
Lemma esc_ok now l due s : inv now l due s -> (S (nz (b_q s)) < cap)%nat ->
  exists s', b_step v on off cap s BEsc = Ok (s', []) /\ inv now l due s' /\ nz (b_q s') = S (nz (b_q s)) /\ b_cnt s' = b_cnt s.
Proof.
  intros [I1 I2 I3 I4] Hc. cbn [b_step].
  assert (nt (b_q s) <= 1)%nat as H1 by (destruct I3 as [(k & _ & _ & Hn) | (_ & _ & Hn)]; lia).
  rewrite put_ok by (rewrite known_len; auto; lia). cbn [bind]. eexists. split; [reflexivity|]. cbn [b_q b_cnt].
  split; [|split; [rewrite nz_snoc; cbn; lia | reflexivity]].
  constructor; cbn [b_st b_tm b_q b_cnt]; auto.
  - apply known_snoc; auto.
  - destruct I3 as [(k & Hk & Hd & Hn) | (Ht & Hd & Hn)]; [left; exists k | right]; rewrite nt_snoc, Hn; auto.
Qed.
(** A turn. *)
Lemma turn_ok now l due s k : inv now l due s -> scratch_ok k ->
  exists s' x, b_step v on off cap s (BTurn k) = Ok (s', x) /\ (nz (b_q s') <= nz (b_q s))%nat /\ b_cnt s' = cnt_after (b_cnt s) x /\
    (x = [] /\ inv now l due s' /\ (b_q s = [] \/ exists q, b_q s = sig_term :: q) \/
     x = [other l] /\ due <= now /\ inv now (other l) (now + span on off (other l)) s' /\ exists q, b_q s = sig_tout :: q).
Proof.
  intros [I1 I2 I3 I4] Hk. cbn [b_step].
  assert (cnt_after (b_cnt s) [] = b_cnt s) as Hc0 by (unfold cnt_after; cbn [filter length N.of_nat]; rewrite N.add_0_r; apply N.mod_small; exact I4).
  destruct (b_q s) as [|e q] eqn:Eq.
  - exists s, []. split; [reflexivity|]. split; [rewrite Eq; auto|]. split; [auto|]. left. split; [reflexivity|]. split; [|auto].
    constructor; rewrite ?Eq; auto.
  - rewrite dispatch_raw. cbn [b_st b_tm b_q b_cnt]. rewrite I1. change (mkD (Some (st_of l)) (fun _ => None) (fun _ => None) []) with (d_of l).
    inversion I2 as [|? ? He Hq]; subst. destruct He as [-> | ->].
    + rewrite (raw_tout v k l Hk). cbn [bind].
      assert (tm_is (b_tm s) Idle /\ due <= now /\ nt q = O) as (Ht & Hd & Hn).
      { destruct I3 as [(k0 & _ & _ & Hn) | (Ht & Hd & Hn)]; cbn in Hn; [discriminate|]. unfold nt. auto. }
      destruct (do_led (other l) (mkBl (Some (st_of (other l))) (b_tm s) q (b_cnt s)) Ht) as (t' & E & Ht'). rewrite E. cbn [b_st b_q b_cnt].
      eexists _, _. split; [reflexivity|]. cbn [b_q b_cnt]. split; [unfold nz; cbn; lia|].
      split.
      { destruct (other l); [reflexivity | exact (eq_sym Hc0)]. }
      right. split; [reflexivity|]. split; [exact Hd|]. split; [|eauto].
      constructor; cbn [b_st b_tm b_q b_cnt]; auto.
      * left. exists (span on off (other l)). auto.
      * destruct (other l); [apply N.mod_lt; lia | exact I4].
    + rewrite (raw_term v k l Hk). cbn [bind do_funs].
      eexists _, _. split; [reflexivity|]. cbn [b_q b_cnt]. split; [unfold nz; cbn; lia|]. split; [auto|].
      left. split; [reflexivity|]. split; [|eauto].
      constructor; cbn [b_st b_tm b_q b_cnt]; auto.
Qed.

(** * Whole executions *)
Lemma cnt_app n xs ys : cnt_after (cnt_after n xs) ys = cnt_after n (xs ++ ys).
Proof.
  unfold cnt_after. rewrite filter_app, app_length, Nat2N.inj_add, N.add_assoc. apply N.add_mod_idemp_l. lia.
Qed.
Lemma run_any : forall ops now l due s, inv now l due s -> Forall bop_ok ops -> (nz (b_q s) + escs ops < cap)%nat ->
  exists s' l' due' xs, b_run v on off cap s ops = Ok (s', xs) /\ inv (now + ticks ops) l' due' s' /\
    b_cnt s' = cnt_after (b_cnt s) (concat xs) /\ l' = shown l (concat xs) /\
    (forall t, t + span on off l <= due -> paced on off t l (stamp now ops xs)).
Proof.
  induction ops as [|o ops IH]; intros now l due s I Ho Hc.
  - exists s, l, due, []. cbn [b_run]. split; [reflexivity|]. split; [unfold ticks; cbn; rewrite N.add_0_r; exact I|].
    split; [unfold cnt_after; cbn; rewrite N.add_0_r; symmetry; apply N.mod_small, (i_cnt _ _ _ _ I)|]. split; [reflexivity|]. intros; exact Logic.I.
  - inversion Ho as [|? ? Ho1 Ho2]; subst. cbn [b_run]. destruct o as [|k|].
    + destruct (tick_ok now l due s I) as (s1 & E & I1 & Hz & Hcn); [cbn in Hc; lia|]. rewrite E. cbn [bind].
      destruct (IH _ _ _ _ I1 Ho2) as (s' & l' & due' & xs & E1 & I' & C & L & P); [cbn in Hc; unfold escs in *; lia|].
      rewrite E1. cbn [bind]. exists s', l', due', ([] :: xs). split; [reflexivity|].
      split; [replace (now + ticks (BTick :: ops)) with (now + 1 + ticks ops) by (unfold ticks; cbn [filter is_tick length]; lia); exact I'|].
      rewrite <- Hcn. split; [exact C|]. split; [exact L|]. intros t Ht. cbn [stamp map app is_tick]. apply P. exact Ht.
    + destruct (turn_ok now l due s k I Ho1) as (s1 & x & E & Hz & Hcn & X). rewrite E. cbn [bind].
      destruct X as [(-> & I1 & _) | (-> & Hd & I1 & _)].
      * destruct (IH _ _ _ _ I1 Ho2) as (s' & l' & due' & xs & E1 & I' & C & L & P); [cbn in Hc; unfold escs in *; lia|].
        rewrite E1. cbn [bind]. exists s', l', due', ([] :: xs). split; [reflexivity|]. split; [exact I'|].
        split; [rewrite C, Hcn, cnt_app; reflexivity|]. split; [exact L|]. intros t Ht. cbn [stamp map app is_tick]. apply P. exact Ht.
      * destruct (IH _ _ _ _ I1 Ho2) as (s' & l' & due' & xs & E1 & I' & C & L & P); [cbn in Hc; unfold escs in *; lia|].
        rewrite E1. cbn [bind]. exists s', l', due', ([other l] :: xs). split; [reflexivity|]. split; [exact I'|].
        split; [rewrite C, Hcn, cnt_app; reflexivity|]. split.
        { rewrite L. unfold shown. cbn [concat app]. destruct (concat xs) as [|y ys]; [reflexivity|]. cbn [last].
          clear. revert y. induction ys as [|z ys IHy]; intros y; [reflexivity|]. cbn [last] in *. apply IHy. }
        intros t Ht. cbn [stamp map app is_tick paced]. split; [reflexivity|]. split; [lia|]. apply P. lia.
    + destruct (esc_ok now l due s I) as (s1 & E & I1 & Hz & Hcn); [cbn in Hc; lia|]. rewrite E. cbn [bind].
      destruct (IH _ _ _ _ I1 Ho2) as (s' & l' & due' & xs & E1 & I' & C & L & P); [cbn in Hc; unfold escs in *; lia|].
      rewrite E1. cbn [bind]. exists s', l', due', ([] :: xs). split; [reflexivity|].
      split; [exact I'|]. rewrite <- Hcn. split; [exact C|]. split; [exact L|]. intros t Ht. cbn [stamp map app is_tick]. apply P. exact Ht.
Qed.
(** Without ESC the clock tells everything. *)
Lemma run_exact : forall ops now l due s, inv now l due s -> Forall bop_ok ops -> escs ops = O -> nz (b_q s) = O -> (0 < cap)%nat ->
  exists s', b_run v on off cap s ops = Ok (s', clock on off now l due ops) /\ (length (b_q s') <= 1)%nat.
Proof.
  induction ops as [|o ops IH]; intros now l due s I Ho He Hz Hc.
  - exists s. split; [reflexivity|]. rewrite known_len by apply (i_q _ _ _ _ I). destruct (i_tm _ _ _ _ I) as [(k & _ & _ & Hn) | (_ & _ & Hn)]; lia.
  - inversion Ho as [|? ? Ho1 Ho2]; subst. cbn [b_run clock]. destruct o as [|k|]; [| |discriminate].
    + destruct (tick_ok now l due s I) as (s1 & E & I1 & Hz1 & Hcn); [lia|]. rewrite E. cbn [bind].
      destruct (IH _ _ _ _ I1 Ho2) as (s' & E1 & Q); [exact He | lia | exact Hc |]. rewrite E1. cbn [bind]. eauto.
    + destruct (turn_ok now l due s k I Ho1) as (s1 & x & E & Hz1 & Hcn & X). rewrite E. cbn [bind].
      destruct X as [(-> & I1 & Hq) | (-> & Hd & I1 & _)].
      * destruct (i_tm _ _ _ _ I) as [(k0 & Hk0 & -> & Hn) | (_ & _ & Hn)].
        2:{ destruct Hq as [Hq | [q Hq]]; rewrite Hq in *; cbn in Hn, Hz; discriminate. }
        destruct Hk0 as (_ & _ & Hk0). rewrite (proj2 (N.leb_gt (now + k0) now)) by lia.
        destruct (IH _ _ _ _ I1 Ho2) as (s' & E1 & Q); [exact He | lia | exact Hc |]. rewrite E1. cbn [bind]. eauto.
      * rewrite (proj2 (N.leb_le due now)) by exact Hd.
        destruct (IH _ _ _ _ I1 Ho2) as (s' & E1 & Q); [exact He | lia | exact Hc |]. rewrite E1. cbn [bind]. eauto.
Qed.
End Step.
