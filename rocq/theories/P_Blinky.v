(** Theorems about the blinky demonstration, both versions of it. *)
From Verif Require Import Base L_Base M_Sm S_SmRun M_SmFlat M_Tmr M_Time M_Blinky S_Blinky L_Blinky.
Local Open Scope N_scope.

(** * C80 The LED blinks in time *)

(** Any times that fit in a tick counter, any order of ticks and turns, any contents
    of scratch memory, and a queue of one place: there is no fault, the LED goes on
    at the start, and every LED call is the one that a wall clock would make: when
    the time is over, at the next turn of the object, and at no other moment. *)
Theorem C80_exact : forall v on off cap k h ops, 1 <= on < 65536 -> 1 <= off < 65536 -> (0 < cap)%nat ->
  scratch_ok k -> Forall bop_ok ops -> escs ops = O ->
  exists s, b_exec v on off cap k h ops = Ok (s, [On], clock on off 0 On on ops) /\ (length (b_q s) <= 1)%nat.
Proof.
  intros v on off cap k h ops Hon Hoff Hc Hk Ho He. unfold b_exec.
  destruct (start_ok v on off Hon k h Hk) as (s & E & I & Hq & _). rewrite E. cbn [bind].
  destruct (run_exact v on off cap Hon Hoff ops 0 On on s I Ho He) as (s' & E' & Q); [rewrite Hq; reflexivity | exact Hc|].
  rewrite E'. cbn [bind]. eauto.
Qed.

(** With ESC pressed at any moment, fewer times than the queue has places: no fault,
    the LED calls still alternate, no state of the LED is shorter than its time,
    cnt counts the calls of bsp_ledOn modulo 256, and the state of the machine is
    that of the LED. *)
Theorem C80_paced : forall v on off cap k h ops, 1 <= on < 65536 -> 1 <= off < 65536 -> (escs ops < cap)%nat ->
  scratch_ok k -> Forall bop_ok ops ->
  exists s xs, b_exec v on off cap k h ops = Ok (s, [On], xs) /\ length xs = length ops /\
    paced on off 0 On (stamp 0 ops xs) /\
    b_cnt s = N.of_nat (1 + length (filter is_on (concat xs))) mod 256 /\
    b_st s = Some (match shown On (concat xs) with On => ledOn | Off => ledOff end).
Proof.
  intros v on off cap k h ops Hon Hoff Hc Hk Ho. unfold b_exec.
  destruct (start_ok v on off Hon k h Hk) as (s & E & I & Hq & Hcn). rewrite E. cbn [bind].
  destruct (run_any v on off cap Hon Hoff ops 0 On on s I Ho) as (s' & l' & due' & xs & E' & I' & C & L & P); [rewrite Hq; cbn; exact Hc|].
  rewrite E'. cbn [bind]. exists s', xs. split; [reflexivity|].
  split.
  { clear -E'. revert s xs E'. induction ops as [|o ops IH]; intros s xs E'; cbn [b_run] in E'.
    - injection E' as _ <-. reflexivity.
    - destruct (b_step v on off cap s o) as [[s1 x]|]; [|discriminate]. cbn [bind] in E'.
      destruct (b_run v on off cap s1 ops) as [[s2 ys]|] eqn:E2; [|discriminate]. cbn [bind] in E'.
      injection E' as E0 <-. subst s2. cbn [length]. f_equal. eapply IH. exact E2. }
  split; [apply P; cbn [span]; lia|].
  split; [rewrite C, Hcn; unfold cnt_after; f_equal; lia|].
  rewrite (i_st _ _ _ _ I'), L. reflexivity.
Qed.

(** If the object runs after every tick the LED keeps the wall clock for ever: after
    [n] ticks it is on exactly if [n] falls in the first [on] ticks of a period. *)
Theorem C80_period : forall v on off cap k h n, 1 <= on < 65536 -> 1 <= off < 65536 -> (0 < cap)%nat -> scratch_ok k ->
  exists s xs, b_exec v on off cap k h (prompt k n) = Ok (s, [On], xs) /\
    shown On (concat xs) = if N.of_nat n mod (on + off) <? on then On else Off.
Proof.
  intros v on off cap k h n Hon Hoff Hc Hk.
  assert (Forall bop_ok (prompt k n)) as Ho.
  { apply Forall_forall. intros o Hi. apply in_flat_map in Hi as (i & _ & [<- | [<- | []]]); cbn; auto. }
  assert (escs (prompt k n) = O) as He.
  { unfold prompt. generalize (seq 0 n). intros l. induction l; [reflexivity|exact IHl]. }
  destruct (C80_exact v on off cap k h (prompt k n) Hon Hoff Hc Hk Ho He) as (s & E & _). exists s. eexists. split; [exact E|].
  (* The clock alone: [r] ticks before the change, [m] the tick within the period. *)
  assert (forall n now l m, m < span on off l ->
    shown l (concat (clock on off now l (now + (span on off l - m)) (prompt k n))) =
    if (N.of_nat n + m + (match l with On => 0 | Off => on end)) mod (on + off) <? on then On else Off) as K.
  { clear -Hon Hoff. intros n. unfold prompt. generalize 0%nat. induction n as [|n IH]; intros j now l m Hm.
    - cbn [seq flat_map clock concat shown last]. unfold shown. cbn [last]. change (N.of_nat 0) with 0.
      rewrite N.mod_small by (destruct l; cbn [span] in Hm; lia).
      destruct l; cbn [span] in Hm; [rewrite (proj2 (N.ltb_lt _ _)) by lia | rewrite (proj2 (N.ltb_ge _ _)) by lia]; reflexivity.
    - cbn [seq flat_map app clock]. destruct (N.eq_dec (span on off l - m) 1) as [H1 | H1].
      + rewrite H1. rewrite N.leb_refl. cbn [concat app].
        specialize (IH (S j) (now + 1) (other l) 0). rewrite N.sub_0_r in IH.
        transitivity (shown (other l) (concat (clock on off (now + 1) (other l) (now + 1 + span on off (other l)) (flat_map (fun _ => [BTick; BTurn k]) (seq (S j) n))))).
        { unfold shown. generalize (concat (clock on off (now + 1) (other l) (now + 1 + span on off (other l)) (flat_map (fun _ => [BTick; BTurn k]) (seq (S j) n)))).
          intros ys. destruct ys as [|y ys]; [reflexivity|]. change (last (y :: ys) l = last (y :: ys) (other l)). clear. revert y.
          induction ys as [|z ys IHy]; intros y; [reflexivity|]. cbn [last] in *. apply IHy. }
        rewrite IH by (destruct l; cbn; lia).
        destruct l; cbn [other span] in *.
        * replace (N.of_nat (S n) + m + 0) with (N.of_nat n + 0 + on) by lia. reflexivity.
        * replace (N.of_nat (S n) + m + on) with (N.of_nat n + 0 + 0 + 1 * (on + off)) by lia. rewrite N.mod_add by lia. reflexivity.
      + rewrite (proj2 (N.leb_gt _ _)) by lia. cbn [concat app].
        replace (now + (span on off l - m)) with (now + 1 + (span on off l - (m + 1))) by lia.
        rewrite IH by lia. replace (N.of_nat (S n) + m) with (N.of_nat n + (m + 1)) by lia. reflexivity. }
  specialize (K n 0 On 0). cbn [span] in K. rewrite N.sub_0_r, N.add_0_l, !N.add_0_r in K. apply K. lia.
Qed.

(** The demonstrations as they are: 2 seconds at 100 ticks a second. *)
Definition demo_time : N := ok_or 0 (time_sec (mkTime 100 65536 4294967296) 2).
Theorem C80_two_seconds : forall v k h n, scratch_ok k ->
  exists s xs, b_exec v demo_time demo_time 4 k h (prompt k n) = Ok (s, [On], xs) /\
    shown On (concat xs) = if N.even (N.of_nat n / 200) then On else Off.
Proof.
  intros v k h n Hk. change demo_time with 200.
  destruct (C80_period v 200 200 4 k h n) as (s & xs & E & H); [lia | lia | lia | exact Hk|].
  exists s, xs. split; [exact E|]. rewrite H. change (200 + 200) with (200 * 2). set (t := N.of_nat n).
  rewrite N.mod_mul_r by lia. pose proof (N.mod_lt t 200 ltac:(lia)) as B1. rewrite <- N.bit0_mod.
  rewrite N.bit0_odd, <- N.negb_even. destruct (N.even (t / 200)); cbn [negb N.b2n].
  - rewrite (proj2 (N.ltb_lt _ _)) by lia. reflexivity.
  - rewrite (proj2 (N.ltb_ge _ _)) by lia. reflexivity.
Qed.

(** On 3 ticks, off 2 ticks; the object is once late, and ESC is pressed. *)
Definition bk : scratch := mkScr [7; 9]%nat 5 (fun k => ([k; 3]%nat, [Some k; Some 8%nat])).
Definition bk_ops : list bop := [BTick; BTurn bk; BTick; BTick; BTick; BTick; BEsc; BTurn bk; BTurn bk; BTick; BTick; BTurn bk; BTick].
Lemma bk_ok : scratch_ok bk.
Proof. split; [reflexivity|]. intros i. split; reflexivity. Qed.
Example C80_case : forall v, scratch_ok bk /\ Forall bop_ok bk_ops /\ escs bk_ops = 1%nat /\
  match b_exec v 3 2 2 bk (fun _ => mkTmr (Some 4) 9 9 true) bk_ops with
  | Ok (s, x, xs) => x = [On] /\ stamp 0 bk_ops xs = [(5, Off); (7, On)] /\ b_st s = Some ledOn /\ b_cnt s = 2
  | Fault _ => False
  end.
Proof.
  intros v. split; [exact bk_ok|]. split; [repeat constructor; try apply bk_ok|]. split; [reflexivity|].
  destruct v; vm_compute; auto.
Qed.
Example C80_period_case : forall v,
  match b_exec v 3 2 1 bk (fun _ => mkTmr None 0 0 false) (prompt bk 12) with
  | Ok (_, x, xs) => concat xs = [Off; On; Off; On] /\ stamp 0 (prompt bk 12) xs = [(3, Off); (5, On); (8, Off); (10, On)]
  | Fault _ => False
  end.
Proof. destruct v; vm_compute; auto. Qed.
(** The bound on ESC is needed: a key that fills the queue stops the program at the
    assertion of the timer's post. *)
Theorem C80_full_refuted : forall v cap, exists ops, Forall bop_ok ops /\ escs ops = cap /\
  (exists s, b_start v 1 1 bk (fun _ => mkTmr None 0 0 false) = Ok (s, [On])) /\
  b_exec v 1 1 cap bk (fun _ => mkTmr None 0 0 false) ops = Fault (FAssert 223).
Proof.
  intros v cap. exists (repeat BEsc cap ++ [BTick]).
  assert (1 <= 1 < 65536) as H1 by lia.
  destruct (start_ok v 1 1 H1 bk (fun _ => mkTmr None 0 0 false) bk_ok) as (s & E & I & Hq & _).
  split; [apply Forall_app; split; [|repeat constructor]; apply Forall_forall; intros o Hi; apply repeat_spec in Hi; subst; exact Logic.I|].
  split.
  { unfold escs. rewrite filter_app, app_length. cbn. rewrite Nat.add_0_r.
    clear. induction cap; cbn; [reflexivity|]. f_equal. exact IHcap. }
  split; [eauto|]. unfold b_exec. rewrite E. cbn [bind].
  assert (forall m s, inv 0 On 1 s -> nt (b_q s) = O -> (length (b_q s) + m = cap)%nat -> b_run v 1 1 cap s (repeat BEsc m ++ [BTick]) = Fault (FAssert 223)) as K.
  { clear. induction m as [|m IH]; intros s I Hn Hm.
    - cbn [repeat app b_run b_step]. destruct (i_tm _ _ _ _ I) as [(k & Hk & Ek & _) | (_ & _ & Hn')]; [|lia].
      assert (k = 1) as -> by lia.
      destruct (tick_last (fun _ q => b_put cap q sig_tout) (b_tm s) (b_q s) Hk) as (t' & _ & E). rewrite E.
      unfold b_put. rewrite (proj2 (Nat.ltb_ge _ _)) by lia. reflexivity.
    - cbn [repeat app b_run b_step]. rewrite put_ok by lia. cbn [bind].
      rewrite IH; [reflexivity| | |].
      + destruct I as [I1 I2 I3 I4]. constructor; cbn [b_st b_tm b_q b_cnt]; auto.
        * apply known_snoc; auto.
        * rewrite nt_snoc. cbn. rewrite Nat.add_0_r. exact I3.
      + cbn [b_q]. rewrite nt_snoc, Hn. reflexivity.
      + cbn [b_q]. rewrite app_length. cbn. lia. }
  rewrite K; [reflexivity | exact I | rewrite Hq; reflexivity | rewrite Hq; reflexivity].
Qed.

Print Assumptions C80_exact.
Print Assumptions C80_paced.
Print Assumptions C80_period.
Print Assumptions C80_two_seconds.
Print Assumptions C80_full_refuted.
