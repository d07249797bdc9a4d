(** Model of source/mempool/src/rkhmempool.c.

    Memory is a partial map from addresses to cells; an unmapped address is
    undefined behaviour to touch.  Addresses are byte addresses, a cell is
    what a pointer-sized object at that address holds, so two block headers
    are distinct cells (C07 shows that blocks are at least a pointer apart).
    The cell type is a parameter: [mk_link] stores a free-list link (the
    [next] of RKH_FREE_BLK_T, rkhmempool.h), [get_link] reads a cell back as
    a link and is [None] when the cell holds something that is not a link
    (type confusion).  The client may store anything in blocks it owns.
    NULL is address 0.

    Configuration: RKH_CFG_MP_REDUCED_EN disabled, low-water mark enabled.
    The [mpi] statistics are never updated by the C code and are omitted. *)
From Verif Require Import Base.
Local Open Scope N_scope.

(** mempool/inc/rkhmempool.h: 79-102 and mempool/src/rkhmempool.c: 69-72, widths of the types. *)
Record mpcfg := mkMpCfg {
  mp_asrt : bool;    (* RKH_CFG_FWK_ASSERT_EN *)
  psz : N;           (* sizeof(RKH_FREE_BLK_T), i.e. of a pointer *)
  bs_mod : N;        (* 2^RKH_CFG_MP_SIZEOF_BSIZE  : range of RKH_MPBS_T *)
  nb_mod : N }.      (* 2^RKH_CFG_MP_SIZEOF_NBLOCK : range of RKH_MPNB_T *)

(** mempool/inc/rkhmempool.h: RKH_MEMPOOL_T. *)
Record mpool := mkMP {
  mp_free : N;       (* head of the free list, 0 = NULL *)
  mp_bsize : N;
  mp_nblocks : N;
  mp_nfree : N;
  mp_nmin : N;
  mp_start : N;
  mp_end : N }.

Section MemPool.
Context {V : Type} (mk_link : N -> V) (get_link : V -> option N) (c : mpcfg).

(** Memory: what the first bytes at an address hold; None where nothing may be accessed.
    mempool/src/rkhmempool.c: 69-72. *)
Definition mem := N -> option V.

(** Reading through a pointer.  rkhmempool.c: 123, 154. *)
Definition mem_rd (m : mem) (a : N) : res V :=
  match m a with Some v => Ok v | None => Fault (FUB UB_bounds) end.
(** Writing through a pointer.  rkhmempool.c: 122, 128, 195. *)
Definition mem_wr (m : mem) (a : N) (v : V) : res mem :=
  match m a with
  | Some _ => Ok (fun x => if x =? a then Some v else m x)
  | None => Fault (FUB UB_bounds)
  end.

(** [fb->next]: read a link.  rkhmempool.c: 123, 154. *)
Definition rd_link (m : mem) (a : N) : res N :=
  do v <- mem_rd m a;
  match get_link v with Some x => Ok x | None => Fault (FUB UB_type) end.

(** rkhmempool.c: 104-108, the rounding loop; [rb] is mp->bsize, [nb] the
    local [nblocks] (an RKH_MPNB_T). *)
Fixpoint mp_round (fuel : nat) (bsize rb nb : N) : res (N * N) :=
  if rb <? bsize then
    match fuel with
    | O => Fault FFuel
    | S k => mp_round k bsize ((rb + psz c) mod bs_mod c) ((nb + 1) mod nb_mod c)
    end
  else Ok (rb, nb).

(** rkhmempool.c: 120-126, the loop that chains the blocks; [step] is
    [nblocks], [&fb[nblocks]] is [fb + nblocks * sizeof(RKH_FREE_BLK_T)]. *)
Fixpoint mp_chain (fuel : nat) (m : mem) (fb ssize bsz step cnt : N) : res (mem * N * N) :=
  if u16 bsz <=? ssize then
    match fuel with
    | O => Fault FFuel
    | S k =>
        do m' <- mem_wr m fb (mk_link (fb + step * psz c));
        do fb' <- rd_link m' fb;
        mp_chain k m' fb' (ssize - u16 bsz) bsz step ((cnt + 1) mod nb_mod c)
    end
  else Ok (m, fb, cnt).

(** rkhmempool.c: 79-139, [rkh_memPool_init]. *)
Definition mp_init (m : mem) (sstart ssize bsize : N) : res (mpool * mem) :=
  do! rassert (mp_asrt c) 92
        (negb (sstart =? 0) && (psz c <=? ssize) &&
         (bsize <? (bsize + psz c) mod bs_mod c));
  do (rb, step) <- mp_round (N.to_nat bsize) bsize (psz c mod bs_mod c) (1 mod nb_mod c);
  do! rassert (mp_asrt c) 113 (u16 rb <=? ssize);
  let ssize := u16 (ssize + 65536 - u16 rb) in
  do (m, fb, cnt) <- mp_chain (N.to_nat ssize) m sstart ssize rb step (1 mod nb_mod c);
  do m <- mem_wr m fb (mk_link 0);
  Ok (mkMP sstart rb cnt cnt cnt sstart fb, m).

(** rkhmempool.c: 141-174, [rkh_memPool_get]. *)
Definition mp_get (p : mpool) (m : mem) : res (mpool * N) :=
  do! rassert (mp_asrt c) 147 (negb (mp_bsize p =? 0));
  let fb := mp_free p in
  if fb =? 0 then Ok (p, 0) else
  do nxt <- rd_link m fb;
  do! rassert (mp_asrt c) 155 (0 <? mp_nfree p);
  let nfree := (mp_nfree p + nb_mod c - 1) mod nb_mod c in
  let nmin := if nfree <? mp_nmin p then nfree else mp_nmin p in
  Ok (mkMP nxt (mp_bsize p) (mp_nblocks p) nfree nmin (mp_start p) (mp_end p), fb).

(** rkhmempool.c: 176-201, [rkh_memPool_put]. *)
Definition mp_put (p : mpool) (m : mem) (blk : N) : res (mpool * mem) :=
  do! rassert (mp_asrt c) 182 (negb (mp_bsize p =? 0));
  do! rassert (mp_asrt c) 185 ((mp_start p <=? blk) && (blk <=? mp_end p) &&
                               (mp_nfree p <? mp_nblocks p));
  do m' <- mem_wr m blk (mk_link (mp_free p));
  Ok (mkMP blk (mp_bsize p) (mp_nblocks p) ((mp_nfree p + 1) mod nb_mod c)
           (mp_nmin p) (mp_start p) (mp_end p), m').

(** rkhmempool.c: 203-218, 220-235, 237-253: the three queries. *)
Definition mp_get_bsize (p : mpool) : N := mp_bsize p.
(** rkhmempool.c: 220-235. *)
Definition mp_get_nfree (p : mpool) : N := mp_nfree p.
(** rkhmempool.c: 237-253. *)
Definition mp_get_low_wmark (p : mpool) : N := mp_nmin p.
End MemPool.
