(** Proofs about the application of demo/cross/shared when 'p' is pressed. *)
From Coq Require Import Lia.
From Verif Require Import Base L_Base M_Sm M_Shared S_Shared L_Shared.
Local Open Scope nat_scope.

(** What the engine does with every event that can occur. *)
Definition srv_next (st : nat) (e : N) : nat * list nat :=
  match st, e with
  | 0, 0%N => (1, [1]) | 0, 5%N => (2, [5]) | 0, _ => (0, [])
  | 1, 0%N => (1, [3]) | 1, 2%N => (0, [2]) | 1, 5%N => (2, [5]) | 1, _ => (1, [])
  | 2, 0%N => (2, [3]) | 2, 5%N => (0, [6]) | _, _ => (2, [])
  end.
Definition cli_next (st : nat) (e : N) : nat * list nat :=
  match st, e with
  | 0, 3%N => (1, [1]) | 0, 5%N => (3, [5]) | 0, _ => (0, [])
  | 1, 1%N => (2, [2]) | 1, _ => (1, [])
  | 2, 4%N => (0, [3; 4]) | 2, 5%N => (3, [5]) | 2, _ => (2, [])
  | 3, 4%N => (3, [3]) | 3, 5%N => (0, [6; 4]) | _, _ => (3, [])
  end.
Lemma srv_turn_eq st e : st <= 2 -> (e = REQ \/ e = DONE \/ e = PAUSE) ->
  turn server_m server_init (Some st) e = Ok (Some (fst (srv_next st e)), snd (srv_next st e)).
Proof.
  intros H E. destruct st as [| [| [| st]]]; [.. | lia]; destruct E as [-> | [-> | ->]]; vm_compute; reflexivity.
Qed.
Lemma cli_turn_eq st e : st <= 3 -> (e = START \/ e = TOUT_REQ \/ e = TOUT_USING \/ e = PAUSE) ->
  turn client_m client_init (Some st) e = Ok (Some (fst (cli_next st e)), snd (cli_next st e)).
Proof.
  intros H E. destruct st as [| [| [| [| st]]]]; [.. | lia]; destruct E as [-> | [-> | [-> | ->]]]; vm_compute; reflexivity.
Qed.

Definition is_sig (x : N) (e : msg) : bool := (m_sig e =? x)%N.
Definition n_of (x : N) (q : list msg) : nat := length (filter (is_sig x) q).
Lemma n_app x a b : n_of x (a ++ b) = n_of x a + n_of x b.
Proof. unfold n_of. rewrite filter_app, app_length. reflexivity. Qed.
Lemma n_cons x e q : n_of x (e :: q) = (if is_sig x e then 1 else 0) + n_of x q.
Proof. unfold n_of. cbn [filter]. destruct (is_sig x e); reflexivity. Qed.

Definition is_waiting (k : cli) : bool := match c_st k with Some x => Nat.eqb x client_waiting | None => false end.
Lemma waiters_len l : forall j, length (clients_in client_waiting j l) = length (filter is_waiting l).
Proof.
  induction l as [| k l IH]; intros j; cbn [clients_in filter]; [reflexivity|]. rewrite app_length, IH. unfold is_waiting at 2.
  destruct (c_st k) as [x|]; [destruct (Nat.eqb x client_waiting)|]; reflexivity.
Qed.
Lemma filter_upd {A} (f : A -> bool) l : forall i p p', nth_error l i = Some p ->
  length (filter f (upd l i p')) + b2n (f p) = length (filter f l) + b2n (f p').
Proof.
  induction l as [| x l IH]; intros i p p' H; destruct i; cbn [nth_error] in H; try discriminate.
  - injection H as ->. cbn [upd filter]. destruct (f p), (f p'); cbn [length b2n]; lia.
  - cbn [upd filter]. specialize (IH _ _ p' H). destruct (f x); cbn [length]; lia.
Qed.

(** Everything that stays true whatever is pressed. *)
Definition cmsg (i : nat) (e : msg) : Prop := e = mkMsg START (S i) \/ e = mkMsg TOUT_REQ 0 \/ e = mkMsg TOUT_USING 0 \/ e = mkMsg PAUSE 0.
Definition smsg (n : nat) (e : msg) : Prop := (exists i, i < n /\ e = mkMsg REQ (S i)) \/ e = mkMsg DONE 0 \/ e = mkMsg PAUSE 0.
Definition ask_pending (s : sys) (d : list nat) (i : nat) (k : cli) : nat :=
  count_occ Nat.eq_dec (reqs (s_q s) ++ d) (S i) + n_of START (c_q k).
(** The client [i] will end its use and say so, with no pause before. *)
Definition will_end (k : cli) : Prop :=
  (c_st k = Some client_waiting /\ exists pre post i, c_q k = pre ++ mkMsg START i :: post /\ n_of PAUSE post = 0) \/
  (c_st k = Some client_using /\ n_of PAUSE (c_q k) = 0 /\ (c_use k = true \/ n_of TOUT_USING (c_q k) <> 0)).
Definition not_idle (st : nat) : bool := negb (Nat.eqb st server_idle).
Record jinv (n : nat) (s : sys) (st : nat) (d : list nat) : Prop := {
  j_n : length (s_cli s) = n;
  j_st : s_st s = Some st /\ st <= 2;
  j_q : Forall (smsg n) (s_q s);
  j_d : s_def s = map (mkMsg REQ) d;
  j_d_lt : Forall (fun c => exists i, i < n /\ c = S i) d;
  j_rec : st = server_idle -> d <> [] -> exists c q, s_q s = mkMsg REQ c :: q;
  j_cli : forall i k, nth_error (s_cli s) i = Some k ->
            (exists x, c_st k = Some x /\ x <= 3) /\ Forall (cmsg i) (c_q k) /\ ask_pending s d i k = b2n (is_waiting k);
  j_dyn : s_dyn s = length (filter is_waiting (s_cli s));
  j_ask : asked (s_log s) = served (s_log s) ++ line (not_idle st) (s_q s) d;
  j_ntot : s_ntot s = (N.of_nat (length (served (s_log s))) mod 2 ^ 32)%N;
  j_ncr : length (s_ncr s) = n /\
          forall i, i < n -> nth_error (s_ncr s) i = Some (N.of_nat (count_occ Nat.eq_dec (served (s_log s)) (S i)) mod 2 ^ 32)%N;
  j_busy : st = server_busy -> n_of PAUSE (s_q s) = 0 -> n_of DONE (s_q s) = 0 ->
           exists i k, nth_error (s_cli s) i = Some k /\ will_end k }.

Lemma line_post b q d post : (b = false -> d <> [] -> exists c q', q = mkMsg REQ c :: q') ->
  line b (q ++ post) d = line b q d ++ reqs post.
Proof.
  intros H. unfold line. rewrite reqs_app. destruct b; [apply app_assoc|].
  destruct (reqs q) as [| r rest] eqn:E.
  - destruct d as [| x d].
    + cbn [app]. exact (firstn_skipn 1 (reqs post)).
    + destruct (H eq_refl) as (c' & q' & ->); [discriminate|]. discriminate.
  - cbn [app firstn skipn]. rewrite <- app_assoc. reflexivity.
Qed.
Lemma will_end_pause k e : m_sig e <> PAUSE -> will_end k -> will_end (with_q k (c_q k ++ [e])).
Proof.
  intros N [(E & pre & post & i & Q & P) | (E & P & U)].
  - left. split; [exact E|]. exists pre, (post ++ [e]), i. cbn [with_q c_q]. split; [rewrite Q, <- app_assoc; reflexivity|].
    rewrite n_app, P, n_cons. unfold is_sig. rewrite (proj2 (N.eqb_neq _ _) N). reflexivity.
  - right. split; [exact E|]. cbn [with_q c_q c_use]. rewrite !n_app, P, n_cons. unfold is_sig at 1. rewrite (proj2 (N.eqb_neq _ _) N). split; [reflexivity|].
    destruct U; [left; assumption | right; lia].
Qed.
Lemma count_reqs_app (q post : list msg) (d : list nat) x :
  count_occ Nat.eq_dec (reqs (q ++ post) ++ d) x = count_occ Nat.eq_dec (reqs q ++ d) x + count_occ Nat.eq_dec (reqs post) x.
Proof. rewrite reqs_app, !count_occ_app. lia. Qed.

(** What one client does. *)
Lemma j_client n s st d i k k' post lx dyn : jinv n s st d -> nth_error (s_cli s) i = Some k ->
  (exists x, c_st k' = Some x /\ x <= 3) -> Forall (cmsg i) (c_q k') ->
  (post = [] \/ post = [mkMsg REQ (S i)] \/ post = [mkMsg DONE 0]) ->
  n_of START (c_q k') + length (reqs post) + b2n (is_waiting k) = n_of START (c_q k) + b2n (is_waiting k') ->
  dyn + b2n (is_waiting k) = s_dyn s + b2n (is_waiting k') ->
  asked lx = reqs post -> served lx = [] ->
  (n_of DONE post = 0 -> will_end k -> will_end k') ->
  jinv n (mkS (s_st s) (s_q s ++ post) (s_def s) (s_ntot s) (s_ncr s) (upd (s_cli s) i k') dyn (s_log s ++ lx)) st d.
Proof.
  intros I Hi Hx Hq Hp Ht Hd Ha Hs Hw. pose proof (nth_some_lt _ _ _ Hi) as Li. destruct I.
  constructor; cbn [s_st s_q s_def s_ntot s_ncr s_cli s_dyn s_log]; rewrite ?length_upd, ?served_app, ?Hs, ?app_nil_r; auto.
  - apply Forall_app. split; [exact j_q0|]. rewrite <- j_n0. destruct Hp as [-> | [-> | ->]]; repeat apply Forall_cons; try apply Forall_nil; [left; eauto | right; left; reflexivity].
  - intros E D. destruct (j_rec0 E D) as (c & q & ->). exists c, (q ++ post). reflexivity.
  - intros j kj Hj. rewrite nth_upd in Hj. unfold ask_pending. cbn [s_q]. rewrite count_reqs_app.
    destruct (Nat.eqb_spec i j) as [<- | Hne].
    + rewrite (proj2 (Nat.ltb_lt _ _)) in Hj by exact Li. cbn [andb] in Hj. injection Hj as <-.
      destruct (j_cli0 _ _ Hi) as (_ & _ & T). unfold ask_pending in T. split; [exact Hx|]. split; [exact Hq|].
      assert (C : count_occ Nat.eq_dec (reqs post) (S i) = length (reqs post)).
      { destruct Hp as [-> | [-> | ->]]; cbn [reqs flat_map req_of m_sig m_cli REQ DONE N.eqb app count_occ length]; try reflexivity.
        destruct (Nat.eq_dec (S i) (S i)); [reflexivity | congruence]. }
      lia.
    + cbn [andb] in Hj. destruct (j_cli0 _ _ Hj) as (A & B & T). unfold ask_pending in T. split; [exact A|]. split; [exact B|].
      assert (C : count_occ Nat.eq_dec (reqs post) (S j) = 0).
      { destruct Hp as [-> | [-> | ->]]; cbn [reqs flat_map req_of m_sig m_cli REQ DONE N.eqb app count_occ]; try reflexivity.
        destruct (Nat.eq_dec (S i) (S j)); [congruence | reflexivity]. }
      lia.
  - pose proof (filter_upd is_waiting _ _ _ k' Hi). lia.
  - rewrite asked_app, Ha, j_ask0, line_post, app_assoc; [reflexivity|].
    intros E. apply j_rec0. destruct st; [reflexivity | discriminate].
  - intros E P D. rewrite n_app in P, D. destruct (j_busy0 E) as (j & kj & Hj & W); [lia | lia|].
    destruct (Nat.eq_dec i j) as [<- | Hne].
    + exists i, k'. rewrite nth_upd_eq by exact Li. split; [reflexivity|]. rewrite Hi in Hj. injection Hj as <-. apply Hw; [lia | exact W].
    + exists j, kj. rewrite nth_upd_ne by exact Hne. auto.
Qed.

(** What the server does: it serves, ... *)
Lemma j_start n s d i k q x : jinv n s server_idle d -> s_q s = mkMsg REQ (S i) :: q -> nth_error (s_cli s) i = Some k ->
  nth_error (s_ncr s) i = Some x ->
  jinv n (mkS (Some server_busy) q (s_def s) ((s_ntot s + 1) mod 2 ^ 32)%N (upd (s_ncr s) i ((x + 1) mod 2 ^ 32)%N)
    (upd (s_cli s) i (with_q k (c_q k ++ [mkMsg START (S i)]))) (s_dyn s) (s_log s ++ [BSvrStart (S i)])) server_busy d.
Proof.
  intros I Eq Hi Hx. pose proof (nth_some_lt _ _ _ Hi) as Li. destruct I. rewrite Eq in *.
  destruct (j_cli0 _ _ Hi) as ((st & Hst & Lst) & Hq & T). unfold ask_pending in T. rewrite Eq in T.
  cbn [reqs flat_map req_of m_sig m_cli REQ N.eqb app count_occ] in T. fold (reqs q) in T.
  destruct (Nat.eq_dec (S i) (S i)) as [_|]; [| congruence]. assert (W : is_waiting k = true) by (destruct (is_waiting k); [reflexivity | cbn [b2n] in T; lia]).
  assert (W' : is_waiting (with_q k (c_q k ++ [mkMsg START (S i)])) = is_waiting k) by reflexivity.
  constructor; cbn [s_st s_q s_def s_ntot s_ncr s_cli s_dyn s_log]; rewrite ?length_upd; auto.
  - now inversion_clear j_q0.
  - discriminate.
  - intros j kj Hj. rewrite nth_upd in Hj. destruct (Nat.eqb_spec i j) as [<- | Hne].
    + rewrite (proj2 (Nat.ltb_lt _ _)) in Hj by exact Li. cbn [andb] in Hj. injection Hj as <-. rewrite W'.
      unfold ask_pending. cbn [s_q with_q c_q c_st]. split; [eauto|]. split; [apply Forall_app; split; [exact Hq | constructor; [left; reflexivity | constructor]]|].
      rewrite n_app, n_cons. unfold is_sig. cbn [m_sig START N.eqb Pos.eqb]. unfold n_of at 2. cbn [filter length]. lia.
    + cbn [andb] in Hj. destruct (j_cli0 _ _ Hj) as (A & B & T'). split; [exact A|]. split; [exact B|]. rewrite <- T'. unfold ask_pending. cbn [s_q]. rewrite Eq.
      cbn [reqs flat_map req_of m_sig m_cli REQ N.eqb app count_occ]. destruct (Nat.eq_dec (S i) (S j)); [congruence | reflexivity].
  - pose proof (filter_upd is_waiting _ _ _ (with_q k (c_q k ++ [mkMsg START (S i)])) Hi) as F. rewrite W' in F. lia.
  - rewrite asked_app, served_app, j_ask0. cbn [asked served flat_map app]. unfold line, not_idle. cbn [server_idle server_busy Nat.eqb negb].
    cbn [reqs flat_map req_of m_sig m_cli REQ N.eqb app firstn skipn]. rewrite app_nil_r, <- app_assoc. reflexivity.
  - rewrite served_app, app_length. cbn [served flat_map app length]. rewrite j_ntot0, mod_succ by discriminate. rewrite Nat.add_1_r. reflexivity.
  - destruct j_ncr0 as [A B]. split; [exact A|]. intros j Hj. rewrite served_app, count_occ_app. cbn [served flat_map app count_occ].
    rewrite nth_upd. destruct (Nat.eqb_spec i j) as [<- | Hne'].
    + rewrite (proj2 (Nat.ltb_lt _ _)) by lia. cbn [andb]. destruct (Nat.eq_dec (S i) (S i)); [| congruence].
      rewrite (B i Hj) in Hx. injection Hx as <-. rewrite mod_succ by discriminate. rewrite Nat.add_1_r. reflexivity.
    + cbn [andb]. destruct (Nat.eq_dec (S i) (S j)); [congruence|]. rewrite Nat.add_0_r. apply B. exact Hj.
  - intros _ _ _. exists i, (with_q k (c_q k ++ [mkMsg START (S i)])). rewrite nth_upd_eq by exact Li. split; [reflexivity|]. left.
    cbn [with_q c_st c_q]. split.
    + unfold is_waiting in W. rewrite Hst in *. apply Nat.eqb_eq in W. congruence.
    + exists (c_q k), [], (S i). split; reflexivity.
Qed.
(** ... keeps a request for later, ... *)
Lemma j_defer n s st d c q : jinv n s st d -> st <> server_idle -> s_q s = mkMsg REQ c :: q ->
  jinv n (mkS (Some st) q (s_def s ++ [mkMsg REQ c]) (s_ntot s) (s_ncr s) (s_cli s) (s_dyn s) (s_log s)) st (d ++ [c]).
Proof.
  intros I Hst Eq. destruct I. rewrite Eq in *. assert (B : not_idle st = true) by (destruct st; [exfalso; apply Hst; reflexivity | reflexivity]). rewrite B in *.
  inversion j_q0 as [| ? ? Hc Hq]; subst.
  constructor; cbn [s_st s_q s_def s_ntot s_ncr s_cli s_dyn s_log]; rewrite ?B; auto.
  - split; [reflexivity | apply j_st0].
  - rewrite j_d0, map_app. reflexivity.
  - apply Forall_app. split; [exact j_d_lt0|]. constructor; [| constructor]. destruct Hc as [(i & Hi & E) | [E | E]]; [| discriminate | discriminate].
    injection E as ->. eauto.
  - congruence.
  - intros j kj Hj. destruct (j_cli0 _ _ Hj) as (A1 & A2 & T). split; [exact A1|]. split; [exact A2|]. rewrite <- T. unfold ask_pending. cbn [s_q]. rewrite Eq.
    cbn [reqs flat_map req_of m_sig m_cli REQ N.eqb app]. fold (reqs q). cbn [count_occ]. rewrite !count_occ_app. cbn [count_occ]. destruct (Nat.eq_dec c (S j)); lia.
  - rewrite j_ask0. unfold line. cbn [reqs flat_map req_of m_sig m_cli REQ N.eqb app]. fold (reqs q). rewrite <- app_assoc. reflexivity.
Qed.
(** ... takes a signal, ... *)
Lemma j_signal n s st st' d e q lx : jinv n s st d -> s_q s = e :: q -> (e = mkMsg DONE 0 \/ e = mkMsg PAUSE 0) ->
  st' <= 2 -> st' <> server_busy -> (st' = server_idle -> st = server_idle \/ d = []) -> asked lx = [] -> served lx = [] ->
  jinv n (mkS (Some st') q (s_def s) (s_ntot s) (s_ncr s) (s_cli s) (s_dyn s) (s_log s ++ lx)) st' d.
Proof.
  intros I Eq He Ls Nb Hd La Ls'. destruct I. rewrite Eq in *. inversion j_q0 as [| ? ? Hc Hq]; subst.
  assert (R : reqs (e :: q) = reqs q) by (destruct He as [-> | ->]; reflexivity).
  assert (D : st = server_idle -> d = []).
  { intros E. destruct d as [| x d]; [reflexivity|]. destruct (j_rec0 E) as (c & q' & K); [discriminate|]. injection K as -> _.
    destruct He as [K | K]; discriminate. }
  constructor; cbn [s_st s_q s_def s_ntot s_ncr s_cli s_dyn s_log]; rewrite ?served_app, ?asked_app, ?La, ?Ls', ?app_nil_r; auto.
  - intros E Nd. destruct (Hd E); [apply D in H; congruence | congruence].
  - intros j kj Hj. destruct (j_cli0 _ _ Hj) as (A1 & A2 & T). split; [exact A1|]. split; [exact A2|]. rewrite <- T. unfold ask_pending. cbn [s_q]. rewrite Eq, R. reflexivity.
  - rewrite j_ask0. f_equal. unfold line. rewrite R. destruct st as [| st], st' as [| st']; cbn [not_idle server_idle Nat.eqb negb].
    + reflexivity.
    + rewrite D by reflexivity. cbn [app]. apply firstn_skipn.
    + destruct (Hd eq_refl) as [E | E]; [discriminate|]. rewrite E. cbn [app]. symmetry. apply firstn_skipn.
    + reflexivity.
  - congruence.
Qed.
(** ... or takes a request back. *)
Lemma j_recall n s st e c d q lx : jinv n s st (c :: d) -> st <> server_idle -> s_q s = e :: q -> (e = mkMsg DONE 0 \/ e = mkMsg PAUSE 0) ->
  asked lx = [] -> served lx = [] ->
  jinv n (mkS (Some server_idle) (mkMsg REQ c :: q) (map (mkMsg REQ) d) (s_ntot s) (s_ncr s) (s_cli s) (s_dyn s) (s_log s ++ lx)) server_idle d.
Proof.
  intros I Hst Eq He La Ls'. destruct I. rewrite Eq in *. inversion j_q0 as [| ? ? Hc Hq]; subst. inversion j_d_lt0 as [| ? ? (i & Li & ->) Hd]; subst.
  assert (R : reqs (e :: q) = reqs q) by (destruct He as [-> | ->]; reflexivity).
  constructor; cbn [s_st s_q s_def s_ntot s_ncr s_cli s_dyn s_log]; rewrite ?served_app, ?asked_app, ?La, ?Ls', ?app_nil_r; auto.
  - constructor; [left; eauto | exact Hq].
  - eauto.
  - intros j kj Hj. destruct (j_cli0 _ _ Hj) as (A1 & A2 & T). split; [exact A1|]. split; [exact A2|]. rewrite <- T. unfold ask_pending. cbn [s_q]. rewrite Eq, R.
    cbn [reqs flat_map req_of m_sig m_cli REQ N.eqb app]. fold (reqs q). cbn [count_occ]. rewrite !count_occ_app. cbn [count_occ]. destruct (Nat.eq_dec (S i) (S j)); lia.
  - rewrite j_ask0. f_equal. unfold line. rewrite R. destruct st as [| st]; [exfalso; apply Hst; reflexivity|]. cbn [not_idle server_idle Nat.eqb negb].
    cbn [reqs flat_map req_of m_sig m_cli REQ N.eqb app firstn skipn]. reflexivity.
  - discriminate.
Qed.
(** 'p' is pressed. *)
Definition paused_cli (k : cli) : cli := with_q k (c_q k ++ [mkMsg PAUSE 0]).
Lemma j_pause n s st d : jinv n s st d ->
  jinv n (mkS (s_st s) (s_q s ++ [mkMsg PAUSE 0]) (s_def s) (s_ntot s) (s_ncr s) (map paused_cli (s_cli s)) (s_dyn s) (s_log s)) st d.
Proof.
  intros I. destruct I. constructor; cbn [s_st s_q s_def s_ntot s_ncr s_cli s_dyn s_log]; auto.
  - rewrite map_length. exact j_n0.
  - apply Forall_app. split; [exact j_q0 | constructor; [right; right; reflexivity | constructor]].
  - intros E D. destruct (j_rec0 E D) as (c & q & ->). exists c, (q ++ [mkMsg PAUSE 0]). reflexivity.
  - intros j kj Hj. rewrite nth_error_map in Hj. destruct (nth_error (s_cli s) j) as [k|] eqn:E; [| discriminate]. injection Hj as <-.
    destruct (j_cli0 _ _ E) as (A & B & T). split; [exact A|]. split.
    + apply Forall_app. split; [exact B | constructor; [do 3 right; reflexivity | constructor]].
    + unfold ask_pending in *. cbn [s_q paused_cli with_q c_q]. rewrite count_reqs_app, n_app.
      change (b2n (is_waiting (paused_cli k))) with (b2n (is_waiting k)). cbn. lia.
  - rewrite j_dyn0. clear. induction (s_cli s) as [| k l IH]; [reflexivity|]. cbn [map filter].
    change (is_waiting (paused_cli k)) with (is_waiting k). destruct (is_waiting k); cbn [length]; rewrite IH; reflexivity.
  - rewrite j_ask0, line_post; [cbn [reqs flat_map req_of m_sig REQ PAUSE N.eqb app]; rewrite app_nil_r; reflexivity|].
    intros E. apply j_rec0. destruct st; [reflexivity | discriminate].
  - intros _ P. rewrite n_app in P. cbn in P. lia.
Qed.

(** The steps of the program. *)
Lemma on_cli_inv s i f s' : on_cli s i f = Ok s' -> exists k k', nth_error (s_cli s) i = Some k /\ f k = Ok k' /\ s' = set_cli s (upd (s_cli s) i k').
Proof.
  unfold on_cli. intros H. apply bind_ok in H as (k & Hk & H). apply rd_ok in Hk. apply bind_ok in H as (k' & F & H).
  apply bind_ok in H as (l & W & H). apply wr_ok in W as [_ ->]. injection H as <-. eauto.
Qed.
Lemma on_cli_g s i k (g : cli -> cli) : nth_error (s_cli s) i = Some k -> on_cli s i (fun k => Ok (g k)) = Ok (set_cli s (upd (s_cli s) i (g k))).
Proof.
  intros H. unfold on_cli. rewrite (proj2 (rd_ok _ _ _) H). cbn [bind]. rewrite wr_lt by (eapply nth_some_lt; eauto). reflexivity.
Qed.
Lemma fifo_inv m q e q' : put_fifo m q e = Ok q' -> q' = q ++ [e].
Proof. unfold put_fifo. intros H. apply bind_ok in H as (u & _ & H). congruence. Qed.
Lemma lifo_inv m q e q' : put_lifo m q e = Ok q' -> q' = e :: q.
Proof. unfold put_lifo. intros H. apply bind_ok in H as (u & _ & H). congruence. Qed.
Lemma post_server_inv h s e s' : post_server h s e = Ok s' -> s' = set_sq s (s_q s ++ [e]).
Proof. unfold post_server. intros H. apply bind_ok in H as (q & Q & H). apply fifo_inv in Q as ->. congruence. Qed.
Lemma post_cli_inv h s i e s' : post_prio h s (S i) e = Ok s' -> exists k, nth_error (s_cli s) i = Some k /\ s' = set_cli s (upd (s_cli s) i (with_q k (c_q k ++ [e]))).
Proof.
  cbn [post_prio]. intros H. apply on_cli_inv in H as (k & k' & Hk & H & ->). apply bind_ok in H as (q & Q & H). apply fifo_inv in Q as ->.
  injection H as <-. eauto.
Qed.
Lemma alloc_inv h s s' : alloc h s = Ok s' -> s' = set_dyn s (S (s_dyn s)).
Proof. unfold alloc. intros H. apply bind_ok in H as (u & _ & H). congruence. Qed.
Lemma recall_inv h s s' : recall h s = Ok s' ->
  (s_def s = [] /\ s' = s) \/ (exists e rest, s_def s = e :: rest /\ s' = call (set_def (set_sq s (e :: s_q s)) rest) (BSvrRecall (m_cli e))).
Proof.
  unfold recall. destruct (s_def s) as [| e rest]; intros H; [left; split; congruence | right]. apply bind_ok in H as (q & Q & H).
  apply lifo_inv in Q as ->. injection H as <-. eauto.
Qed.

Lemma server_step h n s st d s' : jinv n s st d -> server_turn h s = Ok s' -> exists st' d', jinv n s' st' d'.
Proof.
  intros I H. unfold server_turn in H. destruct (s_q s) as [| e q] eqn:Eq; [injection H as <-; eauto|].
  destruct (j_st _ _ _ _ I) as [Es Ls]. pose proof (j_q _ _ _ _ I) as Q. rewrite Eq in Q. inversion Q as [| ? ? He _]; subst.
  assert (Sg : m_sig e = REQ \/ m_sig e = DONE \/ m_sig e = PAUSE).
  { destruct He as [(i & _ & ->) | [-> | ->]]; cbn [m_sig]; auto. }
  rewrite Es, (srv_turn_eq st (m_sig e) Ls Sg) in H. cbn [bind] in H.
  destruct He as [(i & Li & ->) | He].
  - cbn [m_sig REQ] in H. destruct st as [| [| [| st]]]; [| | | lia]; cbn [srv_next fst snd acts] in H.
    + apply bind_ok in H as (s1 & H1 & H). apply bind_ok in H1 as (s2 & H2 & H1). injection H1 as <-. cbn [srv_act] in H2.
      apply bind_ok in H2 as (s3 & H3 & H2). apply alloc_inv in H3 as ->. apply bind_ok in H2 as (s4 & H4 & H2). cbn [m_cli] in H4, H2.
      apply post_cli_inv in H4 as (k & Hk & ->). cbn [set_dyn set_sq set_cli s_cli] in Hk.
      apply bind_ok in H2 as (x & Hx & H2). apply rd_ok in Hx. apply bind_ok in H2 as (l & Hl & H2). apply wr_ok in Hl as [_ ->].
      injection H2 as <-. injection H as <-. cbn [Nat.sub] in *. rewrite Nat.sub_0_r in *.
      exists server_busy, d. pose proof (j_start n s d i k q x I Eq Hk Hx) as J.
      unfold gc, dynamic. cbn [m_sig REQ N.eqb orb negb existsb server_defer Nat.eqb andb].
      cbn [set_dyn set_sst set_cnt call set_cli set_sq s_st s_q s_def s_ntot s_ncr s_cli s_dyn s_log] in *.
      rewrite Nat.sub_succ, Nat.sub_0_r. exact J.
    + apply bind_ok in H as (s1 & H1 & H). apply bind_ok in H1 as (s2 & H2 & H1). injection H1 as <-. cbn [srv_act] in H2.
      apply bind_ok in H2 as (q' & H2 & H3). apply fifo_inv in H2 as ->. injection H3 as <-. injection H as <-.
      exists server_busy, (d ++ [S i]). refine (j_defer n s server_busy d (S i) q I _ Eq). discriminate.
    + apply bind_ok in H as (s1 & H1 & H). apply bind_ok in H1 as (s2 & H2 & H1). injection H1 as <-. cbn [srv_act] in H2.
      apply bind_ok in H2 as (q' & H2 & H3). apply fifo_inv in H2 as ->. injection H3 as <-. injection H as <-.
      exists server_paused, (d ++ [S i]). refine (j_defer n s server_paused d (S i) q I _ Eq). discriminate.
  - assert (Sig : forall st' lx, st' <= 2 -> st' <> server_busy -> (st' = server_idle -> st = server_idle \/ d = []) -> asked lx = [] -> served lx = [] ->
      jinv n (mkS (Some st') q (s_def s) (s_ntot s) (s_ncr s) (s_cli s) (s_dyn s) (s_log s ++ lx)) st' d).
    { intros. apply (j_signal n s st st' d e q lx); auto. }
    assert (Rec : forall s1 x, st <> server_idle -> recall h (set_sq s q) = Ok s1 -> (x = BSvrEnd \/ x = BSvrResume) ->
      exists d', jinv n (set_sst (call s1 x) (Some server_idle)) server_idle d').
    { intros s1 x Nst R X. assert (La : asked [x] = [] /\ served [x] = []) by (destruct X as [-> | ->]; split; reflexivity). destruct La as [La Ls'].
      pose proof (j_d _ _ _ _ I) as Ed. apply recall_inv in R as [(E & ->) | (e' & rest & E & ->)]; cbn [set_sq s_def] in E; rewrite Ed in E.
      - destruct d as [| c d]; [| discriminate]. exists []. refine (Sig server_idle [x] _ _ _ La Ls'); [unfold server_idle; lia | discriminate | auto].
      - destruct d as [| c d]; [discriminate|]. cbn [map] in E. injection E as <- <-. exists d. unfold call, set_sst.
        cbn [set_def set_sq s_st s_q s_def s_ntot s_ncr s_cli s_dyn s_log m_cli]. rewrite <- app_assoc. cbn [app].
        apply (j_recall n s st e c d q [BSvrRecall c; x] I Nst Eq He); cbn in *; assumption. }
    assert (G : forall s1, gc s1 e false = s1) by (intros; unfold gc, dynamic; destruct He as [-> | ->]; reflexivity).
    assert (S0 : forall st', mkS st' q (s_def s) (s_ntot s) (s_ncr s) (s_cli s) (s_dyn s) (s_log s) = mkS st' q (s_def s) (s_ntot s) (s_ncr s) (s_cli s) (s_dyn s) (s_log s ++ []))
      by (intros; rewrite app_nil_r; reflexivity).
    assert (E : m_sig e = DONE \/ m_sig e = PAUSE) by (destruct He as [-> | ->]; auto).
    destruct E as [E | E]; rewrite E in H; unfold DONE, PAUSE in H; (destruct st as [| [| [| st]]]; [| | | lia]); cbn [srv_next fst snd acts] in H;
      apply bind_ok in H as (s1 & H1 & H); change (existsb (Nat.eqb server_defer) _) with false in H; rewrite G in H; injection H as <-.
    + injection H1 as <-. exists server_idle, d. unfold set_sst, set_sq. cbn [s_st s_q s_def s_ntot s_ncr s_cli s_dyn s_log]. rewrite S0.
      apply Sig; auto; discriminate.
    + apply bind_ok in H1 as (s2 & H2 & H1). injection H1 as <-. cbn [srv_act] in H2. apply bind_ok in H2 as (s3 & H3 & H2). injection H2 as <-.
      exists server_idle. eapply Rec; [discriminate | exact H3 | auto].
    + injection H1 as <-. exists server_paused, d. unfold set_sst, set_sq. cbn [s_st s_q s_def s_ntot s_ncr s_cli s_dyn s_log]. rewrite S0.
      apply Sig; auto; discriminate.
    + apply bind_ok in H1 as (s2 & H2 & H1). injection H1 as <-. cbn [srv_act] in H2. injection H2 as <-. exists server_paused, d.
      refine (Sig server_paused [_] _ _ _ _ _); try reflexivity; try discriminate; unfold server_paused; lia.
    + apply bind_ok in H1 as (s2 & H2 & H1). injection H1 as <-. cbn [srv_act] in H2. injection H2 as <-. exists server_paused, d.
      refine (Sig server_paused [_] _ _ _ _ _); try reflexivity; try discriminate; unfold server_paused; lia.
    + apply bind_ok in H1 as (s2 & H2 & H1). injection H1 as <-. cbn [srv_act] in H2. apply bind_ok in H2 as (s3 & H3 & H2). injection H2 as <-.
      exists server_idle. eapply Rec; [discriminate | exact H3 | auto].
Qed.


(** What a client's turn does, by its functions. *)
Definition cli_effect (i : nat) (e : msg) (a : nat) (k : cli) : cli * list msg * list bsp :=
  match a with
  | 1 => (k, [mkMsg REQ (S i)], [BCliReq (S i)])
  | 2 => (with_use k true, [], [BCliUsing (m_cli e)])
  | 3 => (k, [mkMsg DONE 0], [BCliDone (S i)])
  | 4 => (with_wait k true, [], [BCliWait (S i)])
  | 5 => (with_wait k false, [], [BCliPaused (S i)])
  | _ => (k, [], [BCliResumed (S i)])
  end.
Lemma cli_act_inv h i e s l k a s' : 1 <= a <= 6 -> s_cli s = upd l i k -> i < length l -> cli_act h i e s a = Ok s' ->
  let '(k', post, lx) := cli_effect i e a k in
  s' = mkS (s_st s) (s_q s ++ post) (s_def s) (s_ntot s) (s_ncr s) (upd l i k') (s_dyn s + length (reqs post)) (s_log s ++ lx).
Proof.
  intros La E Li H. destruct a as [| [| [| [| [| [| [| a]]]]]]]; try lia; cbn [cli_act cli_effect] in *.
  - apply bind_ok in H as (s1 & H1 & H). apply alloc_inv in H1 as ->. apply bind_ok in H as (s2 & H2 & H). apply post_server_inv in H2 as ->.
    injection H as <-. unfold call, set_cli, set_sq, set_dyn. cbn. rewrite Nat.add_1_r, E. reflexivity.
  - rewrite (on_cli_u s l i k (fun k => with_use k true) E Li) in H. injection H as <-. unfold call, set_cli, set_sq, set_dyn. cbn. rewrite Nat.add_0_r, app_nil_r. reflexivity.
  - apply bind_ok in H as (s1 & H1 & H). apply post_server_inv in H1 as ->. injection H as <-. unfold call, set_cli, set_sq, set_dyn. cbn. rewrite Nat.add_0_r, E. reflexivity.
  - rewrite (on_cli_u s l i k (fun k => with_wait k true) E Li) in H. injection H as <-. unfold call, set_cli, set_sq, set_dyn. cbn. rewrite Nat.add_0_r, app_nil_r. reflexivity.
  - rewrite (on_cli_u s l i k (fun k => with_wait k false) E Li) in H. injection H as <-. unfold call, set_cli, set_sq, set_dyn. cbn. rewrite Nat.add_0_r, app_nil_r. reflexivity.
  - injection H as <-. unfold call, set_cli, set_sq, set_dyn. cbn. rewrite Nat.add_0_r, app_nil_r, E. reflexivity.
Qed.
Fixpoint cli_effects (i : nat) (e : msg) (l : list nat) (k : cli) : cli * list msg * list bsp :=
  match l with
  | [] => (k, [], [])
  | a :: l => let '(k1, p1, l1) := cli_effect i e a k in let '(k2, p2, l2) := cli_effects i e l k1 in (k2, p1 ++ p2, l1 ++ l2)
  end.
Lemma cli_acts_inv h i e l0 l : Forall (fun a => 1 <= a <= 6) l -> forall s k s', s_cli s = upd l0 i k -> i < length l0 -> acts (cli_act h i e) l s = Ok s' ->
  let '(k', post, lx) := cli_effects i e l k in
  s' = mkS (s_st s) (s_q s ++ post) (s_def s) (s_ntot s) (s_ncr s) (upd l0 i k') (s_dyn s + length (reqs post)) (s_log s ++ lx).
Proof.
  induction 1 as [| a l La _ IH]; intros s k s' E Li H; cbn [acts cli_effects] in *.
  - injection H as <-. rewrite !app_nil_r, Nat.add_0_r, <- E. destruct s; reflexivity.
  - apply bind_ok in H as (s1 & H1 & H). pose proof (cli_act_inv h i e s l0 k a s1 La E Li H1) as K.
    destruct (cli_effect i e a k) as [[k1 p1] l1]. specialize (IH s1 k1 s'). rewrite K in IH. specialize (IH eq_refl Li). rewrite <- K in IH at 1. specialize (IH H).
    destruct (cli_effects i e l k1) as [[k2 p2] l2]. cbn [s_st s_q s_def s_ntot s_ncr s_cli s_dyn s_log] in IH.
    rewrite IH, reqs_app, app_length, !app_assoc, Nat.add_assoc. reflexivity.
Qed.
Lemma client_step h n s st d i s' : jinv n s st d -> client_turn h s i = Ok s' -> jinv n s' st d.
Proof.
  intros I H. unfold client_turn in H. apply bind_ok in H as (k & Hk & H). apply rd_ok in Hk. pose proof (nth_some_lt _ _ _ Hk) as Li.
  destruct (c_q k) as [| e q] eqn:Eq; [injection H as <-; exact I|].
  destruct (j_cli _ _ _ _ I _ _ Hk) as ((x & Ex & Lx) & Q & T). rewrite Eq in Q. inversion Q as [| ? ? He Q']; subst.
  assert (Sg : m_sig e = START \/ m_sig e = TOUT_REQ \/ m_sig e = TOUT_USING \/ m_sig e = PAUSE).
  { destruct He as [-> | [-> | [-> | ->]]]; cbn [m_sig]; auto. }
  rewrite Ex, (cli_turn_eq x (m_sig e) Lx Sg) in H. cbn [bind] in H.
  rewrite (on_cli_g s i k (fun k => with_q k q) Hk) in H. cbn [bind] in H. apply bind_ok in H as (s1 & H1 & H).
  apply (cli_acts_inv h i e (s_cli s) _) with (k := with_q k q) in H1; [| | reflexivity | exact Li].
  2: { destruct x as [| [| [| [| x]]]]; try lia; destruct Sg as [-> | [-> | [-> | ->]]]; cbn; repeat constructor. }
  destruct (cli_effects i e (snd (cli_next x (m_sig e))) (with_q k q)) as [[k' post] lx] eqn:Ee.
  assert (E1 : s_cli s1 = upd (s_cli s) i k') by (rewrite H1; reflexivity).
  rewrite (on_cli_u s1 (s_cli s) i k' (fun k => with_st k (Some (fst (cli_next x (m_sig e))))) E1 Li) in H. cbn [bind] in H. injection H as <-.
  subst s1. cbn [set_cli s_st s_q s_def s_ntot s_ncr s_cli s_dyn s_log] in *.
  set (k2 := with_st k' (Some (fst (cli_next x (m_sig e))))).
  set (dyn := if dynamic e then s_dyn s + length (reqs post) - 1 else s_dyn s + length (reqs post)).
  assert (J : jinv n (mkS (s_st s) (s_q s ++ post) (s_def s) (s_ntot s) (s_ncr s) (upd (s_cli s) i k2) dyn (s_log s ++ lx)) st d).
  { assert (P : is_waiting k = true -> 1 <= s_dyn s).
    { intros W. rewrite (j_dyn _ _ _ _ I). assert (K : In k (filter is_waiting (s_cli s))) by (apply filter_In; split; [eapply nth_error_In; eauto | exact W]).
      destruct (filter is_waiting (s_cli s)); [destruct K | cbn; lia]. }
    unfold ask_pending in T. rewrite Eq, n_cons in T. unfold is_waiting in T, P. rewrite Ex in T, P.
    destruct x as [| [| [| [| x]]]]; try lia; destruct He as [-> | [-> | [-> | ->]]];
    unfold is_sig in T; cbn in T; cbn in Ee; injection Ee as <- <- <-; subst k2 dyn;
      try (exfalso; clear - T; lia);
      (apply (j_client n s st d i k); [exact I | exact Hk | eexists; split; [reflexivity | cbn; lia] | exact Q' | auto | | | reflexivity | reflexivity |];
       [ rewrite Eq, n_cons; unfold is_waiting, is_sig; rewrite Ex; cbn; fold (n_of START q); lia
       | unfold is_waiting; rewrite Ex; cbn in *; try specialize (P eq_refl); lia
       | ]).
    all: intros Z [(W1 & pre & post & i0 & W2 & W3) | (W1 & W2 & W3)]; rewrite Ex in W1; try discriminate W1; try discriminate Z; clear W1; rewrite Eq in W2.
    1: { destruct pre as [| e0 pre]; cbn [app] in W2; injection W2 as W0 W2.
         - right. subst post. split; [reflexivity|]. split; [exact W3 | left; reflexivity].
         - exfalso. rewrite W2, n_app, n_cons in T. cbn in T. lia. }
    1-3: destruct pre as [| e0 pre]; cbn [app] in W2; [discriminate W2|]; injection W2 as _ W2; left; (split; [reflexivity|]); exists pre, post, i0;
         split; [exact W2 | exact W3].
    all: rewrite n_cons in W2; unfold is_sig in W2; cbn in W2; try discriminate W2.
    right. split; [reflexivity|]. split; [exact W2|]. rewrite Eq, n_cons in W3. cbn in W3. exact W3. }
  subst dyn k2. unfold gc. destruct (dynamic e); cbn [andb negb set_dyn s_st s_q s_def s_ntot s_ncr s_cli s_dyn s_log]; exact J.
Qed.

Lemma expire_wait_step h n s st d i s' : jinv n s st d -> expire_wait h s i = Ok s' -> jinv n s' st d.
Proof.
  intros I H. unfold expire_wait in H. apply bind_ok in H as (k & Hk & H). apply rd_ok in Hk. pose proof (nth_some_lt _ _ _ Hk) as Li.
  destruct (c_wait k); [| injection H as <-; exact I]. rewrite (on_cli_g s i k (fun k => with_wait k false) Hk) in H. cbn [bind] in H.
  apply post_cli_inv in H as (k1 & Hk1 & ->). cbn [set_cli s_cli] in *. rewrite nth_upd_eq in Hk1 by exact Li. injection Hk1 as <-. rewrite upd_upd.
  destruct (j_cli _ _ _ _ I _ _ Hk) as (X & Q & T).
  pose proof (j_client n s st d i k (with_q (with_wait k false) (c_q k ++ [mkMsg TOUT_REQ 0])) [] [] (s_dyn s) I Hk X) as J. rewrite !app_nil_r in J. apply J; auto.
  - apply Forall_app. split; [exact Q | constructor; [right; left; reflexivity | constructor]].
  - cbn [with_q with_wait c_q]. rewrite n_app. change (is_waiting (with_q _ _)) with (is_waiting k). cbn. lia.
  - intros _ W. apply (will_end_pause k (mkMsg TOUT_REQ 0)); [discriminate | exact W].
Qed.
Lemma expire_use_step h n s st d i s' : jinv n s st d -> expire_use h s i = Ok s' -> jinv n s' st d.
Proof.
  intros I H. unfold expire_use in H. apply bind_ok in H as (k & Hk & H). apply rd_ok in Hk. pose proof (nth_some_lt _ _ _ Hk) as Li.
  destruct (c_use k); [| injection H as <-; exact I]. rewrite (on_cli_g s i k (fun k => with_use k false) Hk) in H. cbn [bind] in H.
  apply post_cli_inv in H as (k1 & Hk1 & ->). cbn [set_cli s_cli] in *. rewrite nth_upd_eq in Hk1 by exact Li. injection Hk1 as <-. rewrite upd_upd.
  destruct (j_cli _ _ _ _ I _ _ Hk) as (X & Q & T).
  pose proof (j_client n s st d i k (with_q (with_use k false) (c_q k ++ [mkMsg TOUT_USING 0])) [] [] (s_dyn s) I Hk X) as J. rewrite !app_nil_r in J. apply J; auto.
  - apply Forall_app. split; [exact Q | constructor; [do 2 right; left; reflexivity | constructor]].
  - cbn [with_q with_use c_q]. rewrite n_app. change (is_waiting (with_q _ _)) with (is_waiting k). cbn. lia.
  - intros _ [(E & pre & post & j & Eq & P) | (E & P & U)].
    + left. split; [exact E|]. exists pre, (post ++ [mkMsg TOUT_USING 0]), j. cbn [with_q with_use c_q]. rewrite Eq, <- app_assoc, n_app, P. split; reflexivity.
    + right. split; [exact E|]. cbn [with_q with_use c_q c_use]. rewrite !n_app, P. split; [reflexivity | right]. cbn. lia.
Qed.
Lemma post_clients_inv h l2 : forall l1 s s', s_cli s = l1 ++ l2 -> post_clients h (length l2) (length l1) s = Ok s' -> s' = set_cli s (l1 ++ map paused_cli l2).
Proof.
  induction l2 as [| k l2 IH]; intros l1 s s' E H; cbn [length post_clients map] in *.
  - injection H as <-. rewrite <- E. destruct s; reflexivity.
  - apply bind_ok in H as (s1 & H1 & H). apply post_cli_inv in H1 as (k0 & Hk & ->).
    assert (E0 : k0 = k) by (rewrite E, nth_error_app2, Nat.sub_diag in Hk by lia; cbn in Hk; congruence). subst k0.
    assert (U : upd (s_cli s) (length l1) (with_q k (c_q k ++ [mkMsg PAUSE 0])) = (l1 ++ [paused_cli k]) ++ l2).
    { rewrite E. clear. rewrite <- app_assoc. cbn [app]. induction l1 as [| x l1 IH]; [reflexivity|]. cbn [app length upd]. now rewrite IH. }
    rewrite U in H. specialize (IH (l1 ++ [paused_cli k]) (set_cli s ((l1 ++ [paused_cli k]) ++ l2)) s' eq_refl).
    rewrite app_length, Nat.add_1_r in IH. rewrite (IH H). unfold set_cli. cbn. rewrite <- app_assoc. reflexivity.
Qed.
Lemma pause_step h n s st d s' : jinv n s st d -> publish_pause h s = Ok s' -> jinv n s' st d.
Proof.
  intros I H. unfold publish_pause in H. apply bind_ok in H as (s1 & H1 & H). apply post_server_inv in H1 as ->.
  apply (post_clients_inv h (s_cli s) [] (set_sq s (s_q s ++ [mkMsg PAUSE 0])) s' eq_refl) in H. subst s'. exact (j_pause n s st d I).
Qed.
Lemma step_j h n s st d o s' : jinv n s st d -> step h s o = Ok s' -> exists st' d', jinv n s' st' d'.
Proof.
  intros I H. destruct o as [| i | i | i |]; cbn [step] in H.
  - eapply server_step; eassumption.
  - exists st, d. eapply client_step; eassumption.
  - exists st, d. eapply expire_wait_step; eassumption.
  - exists st, d. eapply expire_use_step; eassumption.
  - exists st, d. eapply pause_step; eassumption.
Qed.
Lemma run_j h n ops : forall s st d s', jinv n s st d -> run h s ops = Ok s' -> exists st' d', jinv n s' st' d'.
Proof.
  induction ops as [| o ops IH]; intros s st d s' I H; cbn [run] in H; [injection H as <-; eauto|].
  apply bind_ok in H as (s1 & H1 & H). destruct (step_j _ _ _ _ _ _ _ I H1) as (st1 & d1 & I1). eapply IH; eassumption.
Qed.
Lemma inv_j n s : inv n s false [] (repeat PIdle n) -> s_q s = [] -> jinv n s server_idle [].
Proof.
  intros I Q. destruct I. assert (C : forall i k, nth_error (s_cli s) i = Some k -> k = cli_of i PIdle).
  { intros i k Hi. rewrite i_cli, nth_clis in Hi. destruct (nth_error (repeat PIdle n) i) as [p|] eqn:E; [| discriminate].
    apply nth_error_In, repeat_spec in E. subst p. cbn [option_map Nat.add] in Hi. congruence. }
  constructor; rewrite ?Q; auto.
  - rewrite i_cli, length_clis. exact i_n.
  - congruence.
  - intros i k Hi. apply C in Hi as ->. split; [eexists; split; [reflexivity | unfold client_idle; lia]|]. split; [constructor|].
    unfold ask_pending. rewrite Q. reflexivity.
  - rewrite i_dyn, !cnt_idle by reflexivity. cbn [Nat.add]. assert (H : forall k, In k (s_cli s) -> is_waiting k = false).
    { intros k Hk. apply In_nth_error in Hk as (i & Hi). apply C in Hi as ->. reflexivity. }
    clear - H. induction (s_cli s) as [| k l IH]; [reflexivity|]. cbn [filter]. rewrite (H k) by (left; reflexivity). apply IH.
    intros k0 Hk. apply H. right. exact Hk.
  - rewrite i_ask, Q. reflexivity.
  - discriminate.
Qed.
Lemma exec_j h n ops s : exec h n ops = Ok s -> exists st d, jinv n s st d.
Proof.
  intros H. destruct (main_inv h n) as (s0 & E & I & Q). unfold exec in H. rewrite E in H. cbn [bind] in H. eapply run_j; [| exact H]. apply inv_j; eassumption.
Qed.

Lemma clients_in_spec st l : forall j p, In p (clients_in st j l) <-> exists i k, p = S (j + i) /\ nth_error l i = Some k /\ c_st k = Some st.
Proof.
  induction l as [| k l IH]; intros j p; cbn [clients_in].
  - split; [intros [] | intros (i & k & _ & H & _); destruct i; discriminate].
  - rewrite in_app_iff, IH. split.
    + intros [H | (i & k0 & -> & H & E)].
      * exists 0, k. destruct (c_st k) as [x|] eqn:E; [| destruct H]. destruct (Nat.eqb_spec x st) as [K |]; [subst x | destruct H].
        destruct H as [<- | []]. rewrite Nat.add_0_r. auto.
      * exists (S i), k0. rewrite Nat.add_succ_r. auto.
    + intros (i & k0 & -> & H & E). destruct i as [| i]; cbn [nth_error] in H.
      * left. injection H as ->. rewrite E, Nat.eqb_refl, Nat.add_0_r. left. reflexivity.
      * right. exists i, k0. rewrite Nat.add_succ_r. auto.
Qed.
Lemma n_pos x q : n_of x q <> 0 <-> exists e, In e q /\ m_sig e = x.
Proof.
  unfold n_of. split.
  - intros H. destruct (filter (is_sig x) q) as [| e l] eqn:E; [cbn in H; lia|]. assert (K : In e (filter (is_sig x) q)) by (rewrite E; left; reflexivity).
    apply filter_In in K as [K1 K2]. apply N.eqb_eq in K2. eauto.
  - intros (e & H & E). assert (K : In e (filter (is_sig x) q)) by (apply filter_In; split; [exact H | apply N.eqb_eq; exact E]).
    destruct (filter (is_sig x) q); [destruct K | discriminate].
Qed.
Lemma line_count b q d x : count_occ Nat.eq_dec (line b q d) x = count_occ Nat.eq_dec (reqs q ++ d) x.
Proof.
  unfold line. destruct b; rewrite !count_occ_app; [lia|]. rewrite <- (firstn_skipn 1 (reqs q)) at 3. rewrite count_occ_app. lia.
Qed.
Lemma line_ids n s st d c : jinv n s st d -> In c (line (not_idle st) (s_q s) d) -> exists i, i < n /\ c = S i.
Proof.
  intros I H. assert (K : In c (reqs (s_q s) ++ d)).
  { unfold line in H. destruct (not_idle st); rewrite !in_app_iff in *; [tauto|]. rewrite <- (firstn_skipn 1 (reqs (s_q s))), in_app_iff. tauto. }
  apply in_app_iff in K as [K | K].
  - apply in_flat_map in K as (e & He & K). pose proof (proj1 (Forall_forall _ _) (j_q _ _ _ _ I) e He) as [(i & Li & ->) | [-> | ->]]; cbn in K; try destruct K; [| contradiction].
    exists i. auto.
  - exact (proj1 (Forall_forall _ _) (j_d_lt _ _ _ _ I) c K).
Qed.
