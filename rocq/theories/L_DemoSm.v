(** The demonstration machines: one turn in every place, by computation. *)
From Verif Require Import Base L_Base M_Sm S_SmWf S_SmRun L_SmArr M_DemoSm S_DemoSm.

Definition zars : arrays := fun _ => ([0; 0; 0; 0], [None; None; None; None]).
Lemma zars_ok : arrays_ok dcfg zars.
Proof. intros k. split; reflexivity. Qed.
Definition all_codes : list N := map N.of_nat (seq 0 256).
Definition codes : list N := filter (fun c => negb (c =? 45)%N) all_codes.
Lemma codes_in c : (c < 256)%N -> c <> 45%N -> In c codes.
Proof.
  intros H N. apply filter_In. split; [| apply negb_true_iff, N.eqb_neq, N].
  apply in_map_iff. exists (N.to_nat c). split; [lia|]. apply in_seq. lia.
Qed.
Lemma code_sig c : (c < 256)%N -> c <> 45%N -> key_sig c <> sig_creation dcfg.
Proof.
  intros H N E. unfold key_sig in E. cbn in E. destruct (c =? 27)%N; [discriminate|].
  destruct (N.lt_ge_cases (c + 208) 256) as [L | L].
  - rewrite N.mod_small in E by exact L. lia.
  - assert ((c + 208) mod 256 = c - 48)%N as Em.
    { replace (c + 208)%N with ((c - 48) + 1 * 256)%N by lia. rewrite N.mod_add by lia. apply N.mod_small. lia. }
    rewrite Em in E. lia.
Qed.

Definition onat_dec (a b : option nat) : {a = b} + {a <> b}.
Proof. decide equality. apply Nat.eq_dec. Defined.
Definition aobj_dec (a b : aobj) : {a = b} + {a <> b}.
Proof. decide equality; try apply onat_dec. decide equality; apply N.eq_dec. Defined.
Definition sobj_dec (a b : sobj) : {a = b} + {a <> b}.
Proof. decide equality; apply onat_dec. Defined.
Definition ast_dec (a b : ast) : {a = b} + {a <> b}.
Proof. decide equality; try apply N.eq_dec; repeat decide equality. Defined.
Definition sst_dec (a b : sst) : {a = b} + {a <> b}.
Proof. repeat decide equality. Defined.
Definition yes {P : Prop} (d : {P} + {~ P}) : bool := if d then true else false.
Lemma yes_true {P : Prop} (d : {P} + {~ P}) : yes d = true -> P.
Proof. destruct d; [auto | discriminate]. Qed.

(** * One turn *)
Definition tells {A B} (place : A -> option B) (spec : B -> key -> answer B) (turn : arrays -> A -> N -> res (A * rcode * list nat))
    (B_dec : forall a b : B, {a = b} + {a <> b}) (all : list A) (A_dec : forall a b : A, {a = b} + {a <> b}) (o : A) (c : N) : bool :=
  match place o, turn zars o c with
  | Some s, Ok (o', e, fs) =>
    let a := match meaning c with Some k => spec s k | None => Ignored end in
    existsb (fun p => yes (A_dec p o')) all &&
    match place o' with
    | Some s' => yes (B_dec s' (S_DemoSm.place s a))
    | None => false
    end &&
    Bool.eqb (match e with EVT_PROC => true | _ => false end) (taken a) && yes (list_eq_dec Nat.eq_dec fs (said a))
  | _, _ => false
  end.

Section Runs.
Context {A B : Type} (place : A -> option B) (spec : B -> key -> answer B) (turn : arrays -> A -> N -> res (A * rcode * list nat)).
Context (B_dec : forall a b : B, {a = b} + {a <> b}) (A_dec : forall a b : A, {a = b} + {a <> b}) (all : list A).
Context (Hars : forall ars o c, arrays_ok dcfg ars -> (c < 256)%N -> c <> 45%N -> turn ars o c = turn zars o c).
Context (Hall : forallb (fun o => forallb (tells place spec turn B_dec all A_dec o) codes) all = true).
Lemma turns_spec : forall cs o s, Forall (fun x => (fst x < 256)%N /\ fst x <> 45%N /\ arrays_ok dcfg (snd x)) cs ->
  In o all -> place o = Some s ->
  exists o' outs, turns turn o cs = Ok (o', outs) /\ In o' all /\ place o' = Some (fst (keys spec s (map fst cs))) /\
    map tell outs = snd (keys spec s (map fst cs)).
Proof.
  induction cs as [|[c ars] cs IH]; intros o s Hc Ho Hs.
  - exists o, []. cbn. auto.
  - inversion Hc as [|? ? [H1 [H2 H3]] Hc']; subst. cbn [fst snd] in *.
    rewrite forallb_forall in Hall. pose proof (Hall o Ho) as K. rewrite forallb_forall in K. specialize (K c (codes_in c H1 H2)).
    unfold tells in K. rewrite Hs in K. cbn [turns map fst keys]. rewrite (Hars ars o c H3 H1 H2).
    destruct (turn zars o c) as [[[o1 e] fs]|]; [|discriminate]. cbn [bind].
    set (a := match meaning c with Some k => spec s k | None => Ignored end) in *.
    apply andb_true_iff in K as [K K4]. apply andb_true_iff in K as [K K3]. apply andb_true_iff in K as [K1 K2].
    apply existsb_exists in K1 as (o2 & Ho2 & E). apply yes_true in E. subst o2.
    destruct (place o1) as [s1|] eqn:Es1; [|discriminate]. apply yes_true in K2. subst s1.
    apply eqb_prop in K3. apply yes_true in K4. subst fs.
    destruct (IH o1 _ Hc' Ho2 Es1) as (o' & outs & E1 & E2 & E3 & E4).
    rewrite E1. cbn [bind]. destruct (keys spec (S_DemoSm.place s a) (map fst cs)) as [s' l] eqn:Ek. cbn [fst snd] in *.
    exists o', ((e, said a) :: outs). split; [reflexivity|]. split; [exact E2|]. split; [exact E3|].
    cbn [map]. rewrite E4. unfold tell. cbn [fst snd]. rewrite K3. reflexivity.
Qed.
End Runs.

(** * ahsm *)
(** In S1 the deep history is the state itself. *)
Definition a_all : list aobj :=
  flat_map (fun h =>
    mkA (Some S111) h (Some S111) (mkMem 1 0) :: mkA (Some S112) h (Some S112) (mkMem 2 0) :: mkA (Some S12) h (Some S12) (mkMem 3 0) ::
    flat_map (fun dh => flat_map (fun st => flat_map (fun x => map (fun y => mkA (Some st) h dh (mkMem x y)) [0; 1; 2]%N) [1; 2; 3]%N)
      [S2; S31; S32]) [Some S111; Some S112; Some S12])
    [None; Some S111; Some S112].
Lemma a_ars ars o c : arrays_ok dcfg ars -> (c < 256)%N -> c <> 45%N -> a_turn ars o c = a_turn zars o c.
Proof.
  intros H H1 H2. unfold a_turn, a_run. cbv zeta.
  rewrite (dispatch_arr dcfg ahsm (fun g _ l => ask g (after_calls (a_mem o) l)) 20 S1 (Some my_init) (a_dyn o) (mkEv (key_sig c) 0) ars zars H zars_ok).
  - reflexivity.
  - cbn [ev_sig]. apply code_sig; auto.
Qed.
Lemma a_all_ok : forallb (fun o => forallb (tells a_place a_spec a_turn ast_dec a_all aobj_dec o) codes) a_all = true.
Proof. vm_compute. reflexivity. Qed.
(** The start; the machine is well-formed, so the arrays do not matter here either. *)
Definition a_rank (v : nat) : nat := if (v =? S11) || (v =? S12) || (v =? S31) || (v =? S32) then 1 else if (v =? S111) || (v =? S112) then 2 else 0.
Lemma a_wf : wf_machine dcfg ahsm a_rank (fun _ => None) = true.
Proof. vm_compute. reflexivity. Qed.
Definition a_start : aobj := mkA (Some S111) None (Some S111) (mkMem 1 0).
Lemma a_init_ok ars : arrays_ok dcfg ars -> a_init ars = Ok (a_start, EVT_PROC, [my_init; set_y_0; set_x_1]).
Proof.
  intros H. unfold a_init, a_run.
  rewrite (init_arr dcfg ahsm (fun g _ l => ask g (after_calls (a_mem a_zero) l)) a_rank (fun _ => None) 20 S1 (Some my_init) (a_dyn a_zero) (evCreation dcfg) ars zars a_wf).
  - vm_compute. reflexivity.
  - vm_compute. reflexivity.
  - constructor; cbn; intros.
    + destruct (h =? vH); [discriminate|]. destruct (h =? vDH); discriminate.
    + discriminate.
    + destruct (h =? vH); [discriminate|]. destruct (h =? vDH); discriminate.
  - exact H.
  - exact zars_ok.
Qed.
Lemma a_data : forall o s, In o a_all -> a_place o = Some s -> data_ok s.
Proof.
  intros o s Ho Hs. cbn in Ho.
  repeat (destruct Ho as [<- | Ho]; [cbn in Hs; injection Hs as <-; cbn; split; first [reflexivity | lia]|]). contradiction.
Qed.

(** * subm *)
Definition s_all : list sobj :=
  flat_map (fun st => map (fun u => mkS (Some st) u) [None; Some T12; Some T2]) [T11; T13; T3] ++
  flat_map (fun st => map (fun u => mkS (Some st) u) [Some T12; Some T2]) [SB1; SB2].
Lemma s_ars ars o c : arrays_ok dcfg ars -> (c < 256)%N -> c <> 45%N -> s_turn ars o c = s_turn zars o c.
Proof.
  intros H H1 H2. unfold s_turn, s_run.
  rewrite (dispatch_arr dcfg subm (fun _ _ _ => true) 20 T1 (Some s_init) (s_dyn o) (mkEv (key_sig c) 0) ars zars H zars_ok).
  - reflexivity.
  - cbn [ev_sig]. apply code_sig; auto.
Qed.
Lemma s_all_ok : forallb (fun o => forallb (tells s_place s_spec s_turn sst_dec s_all sobj_dec o) codes) s_all = true.
Proof. vm_compute. reflexivity. Qed.
Definition s_rank (v : nat) : nat := if (v =? T11) || (v =? T12) || (v =? T13) || (v =? SB) then 1 else if (v =? SB1) || (v =? SB2) then 2 else 0.
Definition s_home (v : nat) : option nat := if (v =? SB1) || (v =? SB2) || (v =? EXPNT1) || (v =? EXPNT2) then Some SB else None.
Lemma s_wf : wf_machine dcfg subm s_rank s_home = true.
Proof. vm_compute. reflexivity. Qed.
Definition s_start : sobj := mkS (Some T11) None.
Lemma s_init_ok ars : arrays_ok dcfg ars -> s_init_run ars = Ok (s_start, EVT_PROC, [s_init]).
Proof.
  intros H. unfold s_init_run, s_run.
  rewrite (init_arr dcfg subm (fun _ _ _ => true) s_rank s_home 20 T1 (Some s_init) (s_dyn s_zero) (evCreation dcfg) ars zars s_wf).
  - vm_compute. reflexivity.
  - vm_compute. reflexivity.
  - constructor; cbn; intros; try discriminate. destruct (r =? SB); discriminate.
  - exact H.
  - exact zars_ok.
Qed.
