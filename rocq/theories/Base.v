(** Common vocabulary: outcomes, array access, byte arithmetic.

    Nothing here models a particular C function; it is the vocabulary in
    which the [M_*] files transcribe the C code. *)
From Coq Require Export List Arith NArith ZArith Lia Bool.
From Coq Require Export ZifyBool ZifyNat ZifyN.
Export ListNotations.

(** What can go wrong.  [FAssert n]: an RKH_REQUIRE/RKH_ASSERT/RKH_ENSURE at
    source line [n] of the modelled file fired (rkhassert.h calls
    rkh_assert(), which does not return).  [FUB k]: the C program has no
    defined behaviour (out-of-bounds access, NULL or dangling dereference,
    type confusion, division by zero).  [FFuel]: the model ran out of fuel; only loops whose
    termination depends on user data take fuel. *)
Inductive ubkind := UB_bounds | UB_null | UB_dangling | UB_type | UB_div.
(** Base.v has no C counterpart: it is the language the model is written in. *)
Inductive fault := FAssert (line : nat) | FUB (k : ubkind) | FFuel.

(** A result or a fault. *)
Inductive res (A : Type) := Ok (a : A) | Fault (f : fault).
Arguments Ok {A} a.
Arguments Fault {A} f.

(** Sequencing: the first fault ends the run. *)
Definition bind {A B} (r : res A) (k : A -> res B) : res B :=
  match r with Ok a => k a | Fault f => Fault f end.

Declare Scope res_scope.
Notation "'do' x <- r ; k" := (bind r (fun x => k))
  (at level 200, x pattern, r at level 100, k at level 200) : res_scope.
Notation "'do!' r ; k" := (bind r (fun _ => k))
  (at level 200, r at level 100, k at level 200) : res_scope.
Open Scope res_scope.

(** An assertion at source line [line]; [en] tells whether assertions are
    compiled in (RKH_CFG_FWK_ASSERT_EN, fwk/inc/rkhassert.h). *)
Definition rassert (en : bool) (line : nat) (c : bool) : res unit :=
  if c || negb en then Ok tt else Fault (FAssert line).

(** Array read and write with explicit bounds. *)
Definition rd {A} (l : list A) (i : nat) : res A :=
  match nth_error l i with Some x => Ok x | None => Fault (FUB UB_bounds) end.

(** Assignment to an array element. *)
Fixpoint upd {A} (l : list A) (i : nat) (x : A) : list A :=
  match l, i with
  | [], _ => []
  | _ :: t, 0 => x :: t
  | h :: t, S j => h :: upd t j x
  end.

(** The same with the check of the index. *)
Definition wr {A} (l : list A) (i : nat) (x : A) : res (list A) :=
  if i <? length l then Ok (upd l i x) else Fault (FUB UB_bounds).

(** 8-, 16- and 32-bit unsigned wrap-around. *)
Definition u8 (n : N) : N := (n mod 256)%N.
(** Conversion to rui16_t. *)
Definition u16 (n : N) : N := (n mod 65536)%N.
(** Conversion to rui32_t. *)
Definition u32 (n : N) : N := (n mod 4294967296)%N.

(** Result of a run of operations: stop at the first fault. *)
Fixpoint run {S O R} (step : S -> O -> res (S * R)) (s : S) (ops : list O)
  : res (S * list R) :=
  match ops with
  | [] => Ok (s, [])
  | o :: t => do (s1, r) <- step s o;
              do (s2, rs) <- run step s1 t;
              Ok (s2, r :: rs)
  end.
