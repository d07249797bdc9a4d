(** What the two demonstration machines are to do, read off their diagrams as flat
    tables: for each place and key, the new place, the data, and the functions
    called.  Nothing here mentions the engine. *)
From Verif Require Import Base M_Sm S_SmRun M_DemoSm.

(** The keys with a meaning. *)
Definition meaning (c : N) : option key :=
  if (c =? 27)%N then Some TERM
  else if (c =? 48)%N then Some ZERO else if (c =? 49)%N then Some ONE else if (c =? 50)%N then Some TWO
  else if (c =? 51)%N then Some THREE else if (c =? 52)%N then Some FOUR else if (c =? 53)%N then Some FIVE
  else if (c =? 54)%N then Some SIX else if (c =? 55)%N then Some TERM else None.

(** What a key does: nothing, or something. *)
Inductive answer (A : Type) := Ignored | Does (a : A) (fs : list nat).
Arguments Ignored {A}.
Arguments Does {A} a fs.
Definition place {A} (s : A) (x : answer A) : A := match x with Ignored => s | Does a _ => a end.
Definition said {A} (x : answer A) : list nat := match x with Ignored => [] | Does _ fs => fs end.
Definition taken {A} (x : answer A) : bool := match x with Ignored => false | Does _ _ => true end.

(** * demo/80x86/ahsm *)
(** A place; x and y; the place last taken within S11, and within S1. *)
Inductive leaf := L111 | L112 | L12 | L2 | L31 | L32.
Record ast := mkAst { q_at : leaf; q_x : N; q_y : N; q_11 : option leaf; q_1 : option leaf }.
(** Go to a place, having set x and y. *)
Definition go (l : leaf) (x y : N) (s : ast) : ast :=
  mkAst l (match l with L111 => 1 | L112 => 2 | L12 => 3 | _ => x end) y
        (match l with L111 | L112 => Some l | _ => q_11 s end)
        (match l with L111 | L112 | L12 => Some l | _ => q_1 s end).
(** The function called on entering a place. *)
Definition hello (l : leaf) : list nat :=
  match l with L111 => [set_x_1] | L112 => [set_x_2] | L12 => [set_x_3] | _ => [] end.
Definition or111 (l : option leaf) : leaf := match l with Some l => l | None => L111 end.
Definition a_spec (s : ast) (k : key) : answer ast :=
  let x := q_x s in let y := q_y s in
  match k, q_at s with
  | ZERO, _ => Ignored
  | SIX, _ => Does s [show_data]
  | TERM, _ => Does s [terminate]
  | ONE, L111 => Does (go L112 x y s) [set_x_2]
  | ONE, L112 => Does (go L111 x y s) [set_x_1]
  | ONE, L12 => Ignored
  | ONE, L2 => if (x =? 1)%N then Does (go L111 x 0 s) [dummy_act; set_y_0; set_x_1] else Ignored
  | ONE, L31 => Does (go L32 x y s) []
  | ONE, L32 => Does (go L31 x y s) []
  | TWO, L111 => Does (go L112 x y s) [set_x_2]
  | TWO, L112 => Does (go L111 x y s) [set_x_1]
  | TWO, L12 => Does (go L2 x 2 s) [dummy_exit; set_y_2]
  | TWO, L2 => Does s []
  | TWO, (L31 | L32) =>
      if (y =? 1)%N then Does (go (or111 (q_11 s)) x 0 s) (set_y_0 :: hello (or111 (q_11 s)))
      else if (y =? 2)%N then Does (go (or111 (q_1 s)) x 0 s) (dummy_act :: set_y_0 :: hello (or111 (q_1 s)))
      else Does (go L111 x 0 s) [set_y_0; set_x_1]
  | THREE, (L111 | L12) => Does (go L31 x y s) [dummy_exit]
  | THREE, L112 => Does (go L31 1 y s) [set_x1; dummy_exit; dummy_act]
  | THREE, L2 => if (x =? 1)%N then Does (go L31 x y s) [dummy_act; dummy_act]
                 else Does (go L32 x y s) [dummy_act; dummy_act; dummy_act]
  | THREE, L31 => Does (go L31 x y s) []
  | THREE, L32 => Does (go L2 x y s) []
  | FOUR, (L111 | L112) => Does (go L12 x y s) [set_x_3]
  | FOUR, L12 => Does (go L2 x 1 s) [dummy_exit; set_y_1]
  | FOUR, L2 => Does s [dummy_act]
  | FOUR, (L31 | L32) => Ignored
  | FIVE, (L111 | L112 | L12) => Does (go L12 x y s) [set_x_3]
  | FIVE, _ => Ignored
  end.
Definition a_first : ast := mkAst L111 1 0 (Some L111) (Some L111).

(** * demo/80x86/subm *)
(** S11, S13 and S3; the two places of the submachine, each in two uses. *)
Inductive use := InS12 | InS2.
Inductive sst := P11 | P13 | P3 | PB1 (u : use) | PB2 (u : use).
Definition s_spec (s : sst) (k : key) : answer sst :=
  match k, s with
  | TERM, _ => Does s [9]
  | ONE, P11 => Does (PB1 InS12) [5]
  | ONE, (P13 | P3) => Does P11 []
  | TWO, P11 => Does (PB1 InS12) [8]
  | THREE, (P11 | P13) => Does (PB1 InS2) [8]
  | THREE, (PB1 InS12 | PB2 InS12) => Does P11 []
  | FOUR, P11 => Does P11 []
  | FOUR, PB1 u => Does (PB2 u) []
  | FOUR, PB2 u => Does (PB1 u) []
  | FIVE, PB1 InS12 => Does P13 [6; 1]
  | FIVE, PB1 InS2 => Does P11 [6; 3]
  | FIVE, PB2 InS12 => Does P3 [7; 2]
  | FIVE, PB2 InS2 => Does P3 [7; 4]
  | _, _ => Ignored
  end.

(** * Executions *)
(** Keys one after another: the last place and, for each key, whether it did
    something and the functions called. *)
Fixpoint keys {A} (f : A -> key -> answer A) (s : A) (cs : list N) : A * list (bool * list nat) :=
  match cs with
  | [] => (s, [])
  | c :: r => let a := match meaning c with Some k => f s k | None => Ignored end in
              let (s', l) := keys f (place s a) r in (s', (taken a, said a) :: l)
  end.
Fixpoint turns {A} (f : arrays -> A -> N -> res (A * rcode * list nat)) (o : A) (cs : list (N * arrays)) : res (A * list (rcode * list nat)) :=
  match cs with
  | [] => Ok (o, [])
  | (c, ars) :: r => do (o', e, fs) <- f ars o c; do (o'', l) <- turns f o' r; Ok (o'', (e, fs) :: l)
  end.
Definition tell (x : rcode * list nat) : bool * list nat := (match fst x with EVT_PROC => true | _ => false end, snd x).

(** The place of an object. *)
Definition leaf_of (v : nat) : option leaf :=
  if v =? S111 then Some L111 else if v =? S112 then Some L112 else if v =? S12 then Some L12
  else if v =? S2 then Some L2 else if v =? S31 then Some L31 else if v =? S32 then Some L32 else None.
Definition cell (o : option nat) : option leaf := match o with Some v => leaf_of v | None => None end.
Definition a_place (o : aobj) : option ast :=
  match cell (a_st o) with
  | None => None
  | Some l => Some (mkAst l (m_x (a_mem o)) (m_y (a_mem o))
      (match l with L111 | L112 => Some l | _ => cell (a_h o) end)
      (match l with L111 | L112 | L12 => Some l | _ => cell (a_dh o) end))
  end.
Definition s_place (o : sobj) : option sst :=
  match s_st o, s_dyp o with
  | Some v, Some u =>
    if v =? SB1 then (if u =? T12 then Some (PB1 InS12) else if u =? T2 then Some (PB1 InS2) else None)
    else if v =? SB2 then (if u =? T12 then Some (PB2 InS12) else if u =? T2 then Some (PB2 InS2) else None)
    else if v =? T11 then Some P11 else if v =? T13 then Some P13 else if v =? T3 then Some P3 else None
  | Some v, None => if v =? T11 then Some P11 else if v =? T13 then Some P13 else if v =? T3 then Some P3 else None
  | None, _ => None
  end.
(** Between events x is what the entry action of the place set, and y is 0 in S1. *)
Definition data_ok (s : ast) : Prop :=
  match q_at s with
  | L111 => q_x s = 1%N /\ q_y s = 0%N
  | L112 => q_x s = 2%N /\ q_y s = 0%N
  | L12 => q_x s = 3%N /\ q_y s = 0%N
  | _ => (1 <= q_x s <= 3)%N /\ (q_y s <= 2)%N
  end.
