(** Specification vocabulary for the memory pool: what blocks a storage area
    is divided into, and a client that keeps a ledger of the blocks it owns. *)
From Verif Require Import Base M_MemPool.
Local Open Scope N_scope.

(** [r] is the least positive multiple of [w] that is not below [n]. *)
Definition rounds_up (w n r : N) : Prop :=
  (exists k, 1 <= k /\ r = k * w) /\ n <= r /\
  forall k, 1 <= k -> n <= k * w -> r <= k * w.

(** [n] consecutive blocks of [r] bytes from [start]. *)
Definition blocks (start r : N) (n : nat) : list N :=
  map (fun i => start + N.of_nat i * r) (seq 0 n).

Section Client.
Context {V : Type} (mk_link : N -> V) (get_link : V -> option N) (c : mpcfg).

(** A storage area usable as a pool: every address of it is mapped. *)
Definition mapped (m : mem (V:=V)) (start size : N) : Prop :=
  forall a, start <= a < start + size -> m a <> None.

Inductive mpop := MpGet | MpPut (b : N) | MpStore (a : N) (v : V).

(** The pool, the memory and the client's ledger. *)
Record mpsys := mkMS { ms_pool : mpool; ms_mem : mem (V:=V); ms_owned : list N }.

(** A client obeying the rules: it puts only blocks of its ledger and stores
    only inside them; a forbidden request is not issued.  [MpStore a v] puts
    any value in any pointer-sized object inside an owned block, which covers
    overwriting the link the pool left in its first bytes. *)
Definition may_store (s : mpsys) (a : N) : bool :=
  existsb (fun b => (b <=? a) && (a + psz c <=? b + mp_bsize (ms_pool s))) (ms_owned s).

Definition mp_step (s : mpsys) (o : mpop) : res (mpsys * N) :=
  match o with
  | MpGet =>
      do (p, b) <- mp_get get_link c (ms_pool s) (ms_mem s);
      Ok (mkMS p (ms_mem s) (if b =? 0 then ms_owned s else b :: ms_owned s), b)
  | MpPut b =>
      if existsb (N.eqb b) (ms_owned s) then
        do (p, m) <- mp_put mk_link c (ms_pool s) (ms_mem s) b;
        Ok (mkMS p m (remove N.eq_dec b (ms_owned s)), 0)
      else Ok (s, 0)
  | MpStore a v =>
      if may_store s a then
        do m <- mem_wr (ms_mem s) a v;
        Ok (mkMS (ms_pool s) m (ms_owned s), 0)
      else Ok (s, 0)
  end.
End Client.
Arguments mpop : clear implicits.
Arguments mpsys : clear implicits.

(** Configurations and arguments accepted by [rkh_memPool_init] and for which
    no counter wraps: [r] is the rounded block size, one block fits in the
    storage, the storage size is an rui16_t, and the number of pointers in a
    block fits RKH_MPNB_T. *)
Definition mp_cfg_ok (c : mpcfg) : Prop :=
  1 <= psz c < bs_mod c /\ 2 <= nb_mod c.
Definition mp_args_ok (c : mpcfg) (sstart ssize bsize r : N) : Prop :=
  sstart <> 0 /\ ssize < 65536 /\ bsize + psz c < bs_mod c /\
  rounds_up (psz c) bsize r /\ r <= ssize /\ r < psz c * nb_mod c.
