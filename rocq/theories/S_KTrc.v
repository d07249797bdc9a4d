(** Specification vocabulary for the trace records of the kernel. *)
From Verif Require Import Base M_Kernel S_Kernel S_KStat M_KTrc.
Local Open Scope N_scope.

(** Records of some kind so far. *)
Definition recs (f : klab -> bool) (log : list entry) : nat :=
  length (filter (fun x => match x with EL l => f l | EU _ => false end) log).
(** Posts to and gets from the queue of an object; allocations and recyclings in a
    pool. *)
Definition is_post (o : nat) (l : klab) : bool := match l with KPut _ o' _ => Nat.eqb o o' | _ => false end.
Definition is_get (o : nat) (l : klab) : bool := match l with KGet o' _ => Nat.eqb o o' | _ => false end.
Definition is_ae (i : nat) (l : klab) : bool := match l with KStamp j _ => Nat.eqb i j | _ => false end.
Definition is_gcr (i : nat) (l : klab) : bool := match l with KDead j _ => Nat.eqb i j | _ => false end.
(** Blocks of a pool in use. *)
Definition in_use (s : kst) (l : list litem) (i : nat) (bs : list N) : nat :=
  length (filter (fun a => negb (unused s l i a)) bs).
(** Allocations and recyclings of pool [i] in progress. *)
Definition underway (i : nat) (l : list litem) : nat :=
  length (filter (fun x => match x with LRaw j _ | LDead j _ => Nat.eqb i j | _ => false end) l).
(** What an event header should show: nothing counts for a static event; pool and
    number of holders for a dynamic one. *)
Definition hdr_true (statics : list (N * N)) (pools : list (N * N * N)) (rs : list N)
    (s : kst) (l : list litem) (e pool nref : N) : Prop :=
  (is_static statics e = true /\ pool = 0 /\ nref = 0) \/
  (exists i, block_of pools rs i e /\ pool = N.of_nat i + 1 /\ nref = N.of_nat (holders s l e) /\ (holders s l e <= 255)%nat).
(** Header and truth together. *)
Definition hdr_shows (statics : list (N * N)) (pools : list (N * N * N)) (rs : list N)
    (s : kst) (l : list litem) (e sig pool nref : N) : Prop :=
  k_mem s e = Some (CEvt sig nref pool) /\ hdr_true statics pools rs s l e pool nref.
(** The smallest number of free blocks of pool [i], of [n], at any time so far. *)
Definition lowest (n : N) (i : nat) (log : list entry) (m : N) : Prop :=
  (forall pre post, log = pre ++ post -> m <= free_then n i pre) /\
  (exists pre post, log = pre ++ post /\ m = free_then n i pre).
(** What the posts of event [e], with [n] references before, to the queues of [os]
    should show, one after the other. *)
Fixpoint pub_recs (s : kst) (sig pool n : N) (os : list nat) (rs : list krec) : Prop :=
  match os, rs with
  | [], [] => True
  | o :: os, TQuePut false (QAo o1) k m :: TSmaPost false o2 sig' pool' n' k' m' :: rs =>
      o1 = o /\ o2 = o /\ k = N.of_nat (length (ao_view s o)) + 1 /\ k' = k /\ m' = m /\
      sig' = sig /\ pool' = pool /\ n' = n + 1 /\ pub_recs s sig pool (n + 1) os rs
  | _, _ => False
  end.
