(** Properties C12, C13, C14: bit tables and ready group. *)
From Verif Require Import Base M_BitTbl M_RdyGrp S_RdyGrp L_RdyGrp.
Local Open Scope N_scope.

(** C12: the mask table. *)
Theorem C12_bit_mask : forall n,
  getBitMask n = Ok (if n <? 8 then 2 ^ n else 255).
Proof. exact getBitMask_spec. Qed.
Print Assumptions C12_bit_mask.

(** C12: the least-set-bit table, for every non-zero byte. *)
Theorem C12_least_bit : forall x, 0 < x < 256 ->
  exists p, getLeastBitSetPos x = Ok p /\ p < 8 /\ least_set_bit x p.
Proof. exact getLeastBitSetPos_spec. Qed.
Print Assumptions C12_least_bit.

Example C12_ex : getLeastBitSetPos 0xA8 = Ok 3 /\ 0 < 0xA8 < 256.
Proof. split; [reflexivity | lia]. Qed.

(** C13: a group reached by any history of calls with valid priorities is the
    set of priorities whose last call was [setReady]. *)
Theorem C13_ready_set : forall c ops,
  1 <= max_sma c <= 64 -> Forall (fun o => rgop_prio o < max_sma c) ops ->
  exists g, rg_run c (rg_init c) ops = Ok g /\
    (rg_isReady g = true <-> exists p, rg_member ops p = true) /\
    ((exists p, rg_member ops p = true) ->
       exists p, rg_findHighest g = Ok p /\ rg_member ops p = true /\
                 (forall q, rg_member ops q = true -> p <= q)).
Proof. exact rg_history_spec. Qed.
Print Assumptions C13_ready_set.

(** C13: on a group without members [findHighest] answers 0, which is also the
    answer when priority 0 is ready: callers have to ask [isReady] first. *)
Theorem C13_empty_group : forall c ops,
  1 <= max_sma c <= 64 -> Forall (fun o => rgop_prio o < max_sma c) ops ->
  (forall p, rg_member ops p = false) ->
  exists g, rg_run c (rg_init c) ops = Ok g /\ rg_isReady g = false /\ rg_findHighest g = Ok 0.
Proof. exact rg_empty_history. Qed.
Print Assumptions C13_empty_group.

Example C13_empty_ex :
  let c := mkRgCfg 20 true in let ops := [RgReady 9; RgUnready 9; RgUnready 3] in
  Forall (fun o => rgop_prio o < max_sma c) ops /\ rg_member ops 9 = false /\
  (exists g, rg_run c (rg_init c) ops = Ok g /\ rg_findHighest g = Ok 0).
Proof. simpl. repeat split; [repeat constructor|]. eexists; split; reflexivity. Qed.

Definition C13_ops : list rgop :=
  [RgReady 9; RgReady 3; RgReady 17; RgUnready 3; RgReady 17].
Example C13_ex :
  let c := mkRgCfg 20 true in
  Forall (fun o => rgop_prio o < max_sma c) C13_ops /\
  (exists g, rg_run c (rg_init c) C13_ops = Ok g /\ rg_findHighest g = Ok 9) /\
  rg_member C13_ops 9 = true /\ rg_member C13_ops 3 = false.
Proof.
  simpl. repeat split.
  - repeat constructor.
  - eexists; split; reflexivity.
Qed.

(** C13: a priority outside the configured range is rejected, both calls. *)
Theorem C13_range_checked : forall c g p,
  rg_asrt c = true -> max_sma c <= p ->
  rg_setReady c g p = Fault (FAssert 92) /\ rg_setUnready c g p = Fault (FAssert 100).
Proof. exact rg_range_checked. Qed.
Print Assumptions C13_range_checked.

Example C13_range_ex : rg_setReady (mkRgCfg 20 true) (rg_init (mkRgCfg 20 true)) 20 = Fault (FAssert 92).
Proof. reflexivity. Qed.

(** C14: traversal folds the callback over the members in ascending order and
    returns their number. *)
Theorem C14_traverse : forall (W : Type) c ops (cb : N -> W -> res W) w,
  1 <= max_sma c <= 64 -> Forall (fun o => rgop_prio o < max_sma c) ops ->
  exists g l, rg_run c (rg_init c) ops = Ok g /\ ascending l /\
    (forall p, In p l <-> rg_member ops p = true) /\
    rg_traverse g cb w = do w' <- cb_fold cb l w; Ok (N.of_nat (length l), w').
Proof. exact @rg_traverse_history. Qed.
Print Assumptions C14_traverse.

Example C14_ex :
  let c := mkRgCfg 20 true in
  exists g, rg_run c (rg_init c) C13_ops = Ok g /\
    rg_traverse g (fun p l => Ok (l ++ [p])) [] = Ok (2, [9; 17]).
Proof. simpl. eexists; split; reflexivity. Qed.
