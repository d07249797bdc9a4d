(** Times and ticks. *)
From Verif Require Import Base L_Base M_Time M_Tmr S_Tmr L_Tmr P_Tmr.
Local Open Scope N_scope.

(** One tick lasts 1000 / rate milliseconds.  To stay with whole numbers, times are
    measured in units of 1 / rate milliseconds: a tick lasts 1000 units, a
    millisecond [tk_rate] units. *)
Definition fits (c : timecfg) : Prop := 0 < tk_rate c /\ 1000 / tk_rate c < tk_tnt c.

Lemma rate_ms c : fits c -> tick_rate_ms c = Ok (1000 / tk_rate c).
Proof.
  intros [A B]. unfold tick_rate_ms, cdiv. destruct (N.eqb_spec (tk_rate c) 0); [lia|]. cbn [bind]. rewrite N.mod_small by exact B. reflexivity.
Qed.
Lemma exact_mul c : 0 < tk_rate c -> 1000 mod tk_rate c = 0 -> tk_rate c * (1000 / tk_rate c) = 1000 /\ 0 < 1000 / tk_rate c.
Proof.
  intros A B. pose proof (N.div_mod' 1000 (tk_rate c)) as D. rewrite B in D.
  split; [lia|]. destruct (N.eq_dec (1000 / tk_rate c) 0) as [E|E]; [| lia]. rewrite E in D. lia.
Qed.
Lemma div_by a b q : 0 < b -> b * q <= a -> a < b * q + b -> a / b = q.
Proof. intros H1 H2 H3. symmetry. apply (N.div_unique a b q (a - b * q)); lia. Qed.

(** C61: if the rate divides 1000 the conversions are the number of whole ticks in
    the time, exact for seconds and minutes; provided the products fit. *)
Theorem C61_exact : forall c, fits c -> 1000 mod tk_rate c = 0 ->
  (forall ms, exists n, time_ms c ms = Ok n /\ n * 1000 <= ms * tk_rate c < (n + 1) * 1000) /\
  (forall s, s * 1000 < tk_uint c -> time_sec c s = Ok (s * tk_rate c)) /\
  (forall m, m * 60 * 1000 < tk_uint c -> time_min c m = Ok (m * 60 * tk_rate c)).
Proof.
  intros c F D. destruct (exact_mul c (proj1 F) D) as [E P]. pose proof (rate_ms c F) as R.
  set (r := tk_rate c) in *. set (p := 1000 / r) in *.
  assert (NZ : (p =? 0) = false) by (apply N.eqb_neq; lia).
  assert (X : forall x, x * 1000 / p = x * r).
  { intros x. rewrite <- E. replace (x * (r * p)) with (x * r * p) by lia. apply N.div_mul. lia. }
  split; [| split].
  - intros ms. unfold time_ms. rewrite R. cbn [bind]. unfold cdiv. rewrite NZ. eexists. split; [reflexivity|].
    pose proof (N.div_mod' ms p) as M. pose proof (N.mod_lt ms p ltac:(lia)) as L.
    set (q := ms / p) in *. set (k := ms mod p) in *. rewrite <- E, M. nia.
  - intros s Hs. unfold time_sec. rewrite R. cbn [bind]. rewrite N.mod_small by exact Hs. unfold cdiv. rewrite NZ, X. reflexivity.
  - intros m Hm. unfold time_min. rewrite R. cbn [bind]. rewrite (N.mod_small (m * 60)) by lia.
    rewrite N.mod_small by exact Hm. unfold cdiv. rewrite NZ, X. reflexivity.
Qed.
Print Assumptions C61_exact.

Definition c100 : timecfg := mkTime 100 65536 4294967296.
Example C61_ex : fits c100 /\ 1000 mod tk_rate c100 = 0 /\ time_ms c100 1234 = Ok 123 /\ time_sec c100 2 = Ok 200 /\ time_min c100 3 = Ok 18000.
Proof. repeat split; vm_compute; reflexivity. Qed.

(** A one-shot timer started with [RKH_TIME_MS(ms)] when the next tick is [u] units
    away - at most one tick - posts its event at most [ms] milliseconds after the
    start, and less than two ticks before that time. *)
Theorem C61_elapsed : forall k c hook, hook_ok c hook ->
  fits k -> 1000 mod tk_rate k = 0 ->
  forall h ops0 s led rs0 t ms n u ops s' r rs, hook_spares t hook ->
  time_ms k ms = Ok n ->
  Forall (tmop_ok c) ops0 -> Forall (tmop_ok c) (TStart t n 0 :: ops) ->
  run (tm_step c hook) (tm_init h, []) ops0 = Ok ((s, led), rs0) -> In t led ->
  run (tm_step c hook) (s, led) (TStart t n 0 :: ops) = Ok (s', r :: rs) ->
  Forall (spares t) ops -> 0 < u <= 1000 ->
  forall j ps, nth_error (ticks_of rs) j = Some ps -> In t ps ->
  let posted := u + N.of_nat j * 1000 in
  posted <= ms * tk_rate k /\ ms * tk_rate k < posted + 2000.
Proof.
  intros k c hook HK F D h ops0 s led rs0 t ms n u ops s' r rs HS HT O1 O2 R1 HI R2 SP HU j ps J I posted.
  pose proof (C28_one_shot c hook HK h ops0 s led rs0 t n ops s' r rs HS O1 O2 R1 HI R2 SP j ps J) as C.
  apply (count_occ_In N.eq_dec) in I.
  destruct (N.eqb_spec (N.of_nat j + 1) n) as [E|E]; [| lia].
  destruct (C61_exact k F D) as (X & _). destruct (X ms) as (n' & X1 & X2).
  rewrite HT in X1. injection X1 as <-. subst posted. lia.
Qed.
Print Assumptions C61_elapsed.

Example C61_elapsed_ex :
  let ops0 := [TInit 7; TInit 3; TStart 7 1 0] in
  let ops := [TTick; TTick; TTick; TTick] in
  exists s led rs0 s' r rs,
  time_ms c100 35 = Ok 3 /\
  run (tm_step ex_cfg ex_hook) (tm_init ex_heap, []) ops0 = Ok ((s, led), rs0) /\
  run (tm_step ex_cfg ex_hook) (s, led) (TStart 3 3 0 :: ops) = Ok (s', r :: rs) /\
  In 3 led /\ Forall (spares 3) ops /\ ticks_of rs = [[7]; []; [3]; []] /\
  (* the next tick 1 ms away: the event comes 21 ms after the start *)
  100 + 2 * 1000 = 21 * tk_rate c100.
Proof.
  do 6 eexists. split; [vm_compute; reflexivity|]. split; [vm_compute; reflexivity|]. split; [vm_compute; reflexivity|].
  split; [simpl; auto|]. split; [repeat constructor|]. split; reflexivity.
Qed.

(** A time shorter than a tick becomes 0 ticks, which [rkh_tmr_start] refuses. *)
Theorem C61_short : forall k c s t p ms, fits k -> 1000 mod tk_rate k = 0 -> ms * tk_rate k < 1000 -> tm_asrt c = true ->
  exists n, time_ms k ms = Ok n /\ tm_start c s t n p = Fault (FAssert 202).
Proof.
  intros k c s t p ms F D L A. destruct (C61_exact k F D) as (X & _). destruct (X ms) as (n & X1 & X2).
  exists n. split; [exact X1|]. assert (n = 0) by lia. subst n. unfold tm_start. rewrite A. reflexivity.
Qed.
Print Assumptions C61_short.
Example C61_short_ex : 9 * tk_rate c100 < 1000 /\ time_ms c100 9 = Ok 0.
Proof. split; vm_compute; reflexivity. Qed.

(** For the other rates up to 1000, each tick counted takes
    (1000 mod rate) / rate milliseconds more than assumed. *)
Theorem C61_skew : forall c ms n, fits c -> tk_rate c <= 1000 -> time_ms c ms = Ok n ->
  let assumed := n * (1000 - 1000 mod tk_rate c) in
  assumed <= ms * tk_rate c < assumed + 1000.
Proof.
  intros c ms n F L H assumed. unfold time_ms in H. rewrite (rate_ms c F) in H. cbn [bind] in H. destruct F as [F _].
  set (r := tk_rate c) in *. pose proof (N.div_mod' 1000 r) as E. pose proof (N.mod_lt 1000 r ltac:(lia)) as E2.
  set (p := 1000 / r) in *. set (e := 1000 mod r) in *.
  assert (P : 0 < p) by (destruct (N.eq_dec p 0) as [Z|]; [rewrite Z in E; lia | lia]).
  unfold cdiv in H. destruct (N.eqb_spec p 0); [lia|]. injection H as <-.
  pose proof (N.div_mod' ms p) as M. pose proof (N.mod_lt ms p ltac:(lia)) as L2.
  subst assumed. set (q := ms / p) in *. set (k := ms mod p) in *.
  replace (1000 - e) with (r * p) by lia. rewrite M. nia.
Qed.
Print Assumptions C61_skew.
Example C61_skew_ex : let c := mkTime 300 65536 4294967296 in
  fits c /\ tk_rate c <= 1000 /\ time_ms c 1000 = Ok 333 /\ 1000 mod tk_rate c = 100.
Proof. vm_compute. repeat split; try reflexivity; discriminate. Qed.

(** So a second may be converted to nearly two seconds ... *)
Theorem C61_second_refuted : exists c n, fits c /\ time_sec c 1 = Ok n /\ 19 * tk_rate c * 1000 < n * 1000 * 10.
Proof. exists (mkTime 501 65536 4294967296), 1000. vm_compute. repeat split; reflexivity. Qed.
Print Assumptions C61_second_refuted.
(** ... and above 1000 ticks per second every conversion divides by zero. *)
Theorem C61_fast_refuted : forall c x, 1000 < tk_rate c -> 0 < tk_tnt c ->
  time_ms c x = Fault (FUB UB_div) /\ time_sec c x = Fault (FUB UB_div) /\ time_min c x = Fault (FUB UB_div).
Proof.
  intros c x H T. assert (E : tick_rate_ms c = Ok 0).
  { unfold tick_rate_ms, cdiv. destruct (N.eqb_spec (tk_rate c) 0); [lia|]. cbn [bind]. rewrite N.div_small by lia.
    rewrite N.mod_0_l by lia. reflexivity. }
  unfold time_ms, time_sec, time_min. rewrite E. repeat split; reflexivity.
Qed.
Print Assumptions C61_fast_refuted.
Example C61_fast_ex : 1000 < tk_rate (mkTime 1024 65536 4294967296).
Proof. reflexivity. Qed.
(** With 8-bit tick counts and at most 3 ticks per second the tick period is cut
    to 8 bits. *)
Theorem C61_slow_refuted : exists c, tk_tnt c = 256 /\ tk_rate c = 3 /\ time_sec c 1 = Ok 12.
Proof. exists (mkTime 3 256 65536). repeat split; vm_compute; reflexivity. Qed.
Print Assumptions C61_slow_refuted.
(** With 16-bit integers the product of 66 seconds wraps. *)
Theorem C61_wrap_refuted : exists c, fits c /\ tk_rate c = 100 /\ tk_uint c = 65536 /\ time_sec c 65 = Ok 6500 /\ time_sec c 66 = Ok 46.
Proof. exists (mkTime 100 65536 65536). vm_compute. repeat split; reflexivity. Qed.
Print Assumptions C61_wrap_refuted.
