(** A concrete system, used to show that the hypotheses of the kernel theorems
    can be met: four priorities, three active objects, two deferral queues, two
    event pools (three blocks of 16 bytes, two of 40) and two static events. *)
From Verif Require Import Base L_Base M_RdyGrp M_Queue M_MemPool S_MemPool M_Kernel S_Kernel.
Local Open Scope N_scope.

Definition K_cfg : kcfg := mkKCfg (mkQCfg true 255 (mkRgCfg 4 true)) (mkMpCfg true 8 65536 256) 3 2 65536 65536.
Definition K_statics : list (N * N) := [(50, 7); (60, 8)].
Definition K_mem0 : @mem cell := fun a =>
  if a =? 50 then Some (CEvt 7 0 0) else if a =? 60 then Some (CEvt 8 0 0)
  else if (1000 <=? a) && (a <? 1050) || (2000 <=? a) && (a <? 2080) then Some CRaw else None.
(** Object 0 has the lowest of the three priorities, object 1 the highest. *)
Definition K_prios : list N := [2; 0; 1].
Definition K_dqs : list (list (option N) * nat) := [([None; None; None], 3%nat); ([None], 1%nat)].
Definition K_pools : list (N * N * N) := [(1000, 50, 10); (2000, 80, 40)].
Definition K_rs : list N := [16; 40].
Notation K_reach := (reachable K_cfg K_mem0 K_statics K_prios K_dqs K_pools).

Lemma K_ok : sys_ok K_cfg K_mem0 K_statics K_prios K_dqs K_pools K_rs.
Proof.
  constructor.
  - reflexivity.
  - vm_compute. split; discriminate.
  - vm_compute. split; [split|]; try discriminate; reflexivity.
  - reflexivity.
  - cbn. lia.
  - intros [|[|i]] p r Hp Hr; cbn in Hp, Hr; [| |destruct i; discriminate].
    + injection Hp as <-. injection Hr as <-. split; [|split].
      * split; [discriminate|]. split; [reflexivity|]. split; [reflexivity|]. split; [|split; [discriminate|reflexivity]].
        split; [exists 2; split; [discriminate|reflexivity]|]. split; [discriminate|].
        cbn [psz k_mp K_cfg]. intros k H1 H2. lia.
      * intros a Ha. unfold K_mem0.
        replace ((1000 <=? a) && (a <? 1050)) with true
          by (symmetry; apply andb_true_iff; rewrite N.leb_le, N.ltb_lt; lia).
        cbn [orb]. destruct (a =? 50); [discriminate|]. destruct (a =? 60); discriminate.
      * repeat split; reflexivity.
    + injection Hp as <-. injection Hr as <-. split; [|split].
      * split; [discriminate|]. split; [reflexivity|]. split; [reflexivity|]. split; [|split; [discriminate|reflexivity]].
        split; [exists 5; split; [discriminate|reflexivity]|]. split; [discriminate|].
        cbn [psz k_mp K_cfg]. intros k H1 H2. lia.
      * intros a Ha. unfold K_mem0.
        replace ((2000 <=? a) && (a <? 2080)) with true
          by (symmetry; apply andb_true_iff; rewrite N.leb_le, N.ltb_lt; lia).
        rewrite orb_true_r. destruct (a =? 50); [discriminate|]. destruct (a =? 60); discriminate.
      * repeat split; reflexivity.
  - intros i j a b n a' b' n' Hi Hj Hij.
    destruct i as [|[|i]], j as [|[|j]]; cbn in Hi, Hj; try congruence;
      try (destruct i; discriminate); try (destruct j; discriminate);
      injection Hi as <- <- <-; injection Hj as <- <- <-; lia.
  - intros e sig [E|[E|[]]]; injection E as <- <-; (split; [discriminate|]; split; [reflexivity|]);
      intros [|[|i]] a n b Hi; cbn in Hi; try (destruct i; discriminate); injection Hi as <- <- <-; lia.
  - intros e sig sig' [E|[E|[]]] [E'|[E'|[]]]; congruence.
  - intros [|[|[|i]]] p Hp; cbn in Hp; try (destruct i; discriminate); injection Hp as <-; reflexivity.
  - intros sto n [E|[E|[]]]; injection E as <- <-; cbn; lia.
Qed.

Definition K_s0 : kst := ok_or (kst0 K_cfg K_mem0 K_prios K_dqs) (start K_cfg K_mem0 K_prios K_dqs K_pools).
(** The state after a list of choices, and whether they ran without a fault. *)
Definition K_at (chs : list choice) : conf := ok_or (conf0 K_s0) (crun K_cfg K_statics (conf0 K_s0) chs).
Definition K_ran (chs : list choice) : bool := is_ok (crun K_cfg K_statics (conf0 K_s0) chs).
Lemma K_reachable chs : K_ran chs = true -> K_reach (K_at chs).
Proof.
  intros H. exists K_s0, chs. split.
  - unfold K_s0. destruct (start K_cfg K_mem0 K_prios K_dqs K_pools) eqn:E; [reflexivity|]. vm_compute in E. discriminate.
  - unfold K_at, K_ran in *. destruct (crun _ _ _ _); [reflexivity|discriminate].
Qed.
Definition go (n : nat) : list choice := repeat ChGo n.

(** main() activates the three objects; then it allocates an event (block 1000)
    and subscribes all three to channel 0. *)
Definition K_boot : list choice :=
  (ChCall (OActivate 0 [None; None; None; None] 4) :: go 5) ++
  (ChCall (OActivate 1 [None; None] 2) :: go 5) ++
  (ChCall (OActivate 2 [None; None; None] 3) :: go 5).
Definition K_new : list choice := K_boot ++ ChCall (OAe 10 5) :: go 4.
Definition K_subs : list choice :=
  K_new ++ (ChCall (OSub 0 0) :: go 2) ++ (ChCall (OSub 0 2) :: go 2) ++ (ChCall (OSub 0 1) :: go 2).
(** It publishes the event as object 2, posts the static events to object 0, one
    of them ahead, defers the event, allocates another one (2000), reserves the
    first and posts the second to object 1. *)
Definition K_busy : list choice :=
  K_subs ++ (ChCall (OPublish 0 1000 (Some 2%nat)) :: go 4) ++ (ChCall (OPost false 0 50) :: go 2) ++
  (ChCall (OPost true 0 60) :: go 2) ++ (ChCall (ODefer 0 1000) :: go 2) ++ (ChCall (OAe 30 6) :: go 4) ++
  (ChCall (OReserve 1000) :: go 2) ++ (ChCall (OPost false 1 2000) :: go 2).
(** main() calls rkh_fwk_enter. *)
Definition K_loop : list choice := K_busy ++ go 2.
(** Into the second turn of the loop: event 2000 is being dispatched to object 1.
    In the first turn an interrupt, between the choice of object 1 and its get,
    posted to object 2. *)
Definition K_turns : list choice :=
  K_loop ++ go 1 ++ [ChIrq; ChCall (OPost false 2 60)] ++ go 11.
