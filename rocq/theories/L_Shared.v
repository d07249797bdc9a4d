(** Proofs about the application of demo/cross/shared. *)
From Coq Require Import Lia.
From Verif Require Import Base L_Base M_Sm M_Shared S_Shared.
Local Open Scope nat_scope.

(** Without PAUSE a client is in one of six phases. *)
Inductive ph := PIdle | PDue | PReq | PStart | PUse | PEnd.
Definition cli_of (i : nat) (p : ph) : cli :=
  match p with
  | PIdle => mkC (Some client_idle) [] false true
  | PDue => mkC (Some client_idle) [mkMsg TOUT_REQ 0] false false
  | PReq => mkC (Some client_waiting) [] false false
  | PStart => mkC (Some client_waiting) [mkMsg START (S i)] false false
  | PUse => mkC (Some client_using) [] true false
  | PEnd => mkC (Some client_using) [mkMsg TOUT_USING 0] false false
  end.
Fixpoint clis (i : nat) (l : list ph) : list cli :=
  match l with [] => [] | p :: l => cli_of i p :: clis (S i) l end.

Lemma nth_clis l : forall j i, nth_error (clis j l) i = option_map (cli_of (j + i)) (nth_error l i).
Proof.
  induction l as [| p l IH]; intros j i; destruct i; cbn [clis nth_error option_map]; try reflexivity.
  - rewrite Nat.add_0_r. reflexivity.
  - rewrite IH. rewrite Nat.add_succ_r. reflexivity.
Qed.
Lemma length_clis l : forall j, length (clis j l) = length l.
Proof. induction l; intros j; cbn [clis length]; [reflexivity | now rewrite IHl]. Qed.
Lemma upd_clis l : forall j i p, i < length l -> upd (clis j l) i (cli_of (j + i) p) = clis j (upd l i p).
Proof.
  induction l as [| x l IH]; intros j i p H; [cbn in H; lia|].
  destruct i; cbn [clis upd].
  - rewrite Nat.add_0_r. reflexivity.
  - rewrite <- IH by (cbn [length] in H; lia). rewrite Nat.add_succ_r. reflexivity.
Qed.

Definition cnt (f : ph -> bool) (l : list ph) : nat := length (filter f l).
Definition b2n (b : bool) : nat := if b then 1 else 0.
Lemma cnt_upd f l : forall i p p', nth_error l i = Some p -> cnt f (upd l i p') + b2n (f p) = cnt f l + b2n (f p').
Proof.
  unfold cnt. induction l as [| x l IH]; intros i p p' H; destruct i; cbn [nth_error] in H; try discriminate.
  - injection H as ->. cbn [upd filter]. destruct (f p), (f p'); cbn [length b2n]; lia.
  - cbn [upd filter]. specialize (IH _ _ p' H). destruct (f x); cbn [length]; lia.
Qed.
Lemma cnt_pos f l i p : nth_error l i = Some p -> f p = true -> 1 <= cnt f l.
Proof. intros H F. pose proof (cnt_upd f l i p p H). apply nth_error_In in H.
  unfold cnt. assert (In p (filter f l)) by (apply filter_In; auto). destruct (filter f l); [contradiction | cbn; lia]. Qed.
Lemma cnt_le f l : cnt f l <= length l.
Proof. unfold cnt. induction l as [| x l IH]; [apply Nat.le_refl |]. cbn [filter length]. destruct (f x); cbn [length]; lia. Qed.
Lemma cnt_lt f l i p : nth_error l i = Some p -> f p = false -> cnt f l < length l.
Proof.
  revert i. induction l as [| x l IH]; intros i H F; destruct i; cbn [nth_error] in H; try discriminate; unfold cnt in *; cbn [filter length].
  - injection H as ->. rewrite F. pose proof (cnt_le f l). unfold cnt in *. lia.
  - specialize (IH _ H F). destruct (f x); cbn [length]; lia.
Qed.
Lemma cnt_two f l : forall i j p q, nth_error l i = Some p -> nth_error l j = Some q -> f p = true -> f q = true -> i <> j -> 2 <= cnt f l.
Proof.
  unfold cnt. induction l as [| x l IH]; intros i j p q Hi Hj Fp Fq Hne; destruct i, j; cbn [nth_error] in *; try discriminate; try lia.
  - injection Hi as ->. cbn [filter]. rewrite Fp. cbn [length]. pose proof (cnt_pos f l j q Hj Fq). unfold cnt in *. lia.
  - injection Hj as ->. cbn [filter]. rewrite Fq. cbn [length]. pose proof (cnt_pos f l i p Hi Fp). unfold cnt in *. lia.
  - cbn [filter]. assert (H : i <> j) by lia. specialize (IH _ _ _ _ Hi Hj Fp Fq H). destruct (f x); cbn [length]; lia.
Qed.

Definition isReq p := match p with PReq => true | _ => false end.
Definition isStart p := match p with PStart => true | _ => false end.
Definition isUsing p := match p with PUse | PEnd => true | _ => false end.
Definition holds p := match p with PStart | PUse | PEnd => true | _ => false end.

(** The server's messages. *)
Definition req_of (e : msg) : list nat := if (m_sig e =? REQ)%N then [m_cli e] else [].
Definition reqs (q : list msg) : list nat := flat_map req_of q.
Definition ndone (q : list msg) : nat := length (filter (fun e => (m_sig e =? DONE)%N) q).
Definition q_ok (q : list msg) : Prop := Forall (fun e => (exists c, e = mkMsg REQ c) \/ e = mkMsg DONE 0) q.
Lemma reqs_app a b : reqs (a ++ b) = reqs a ++ reqs b.
Proof. apply flat_map_app. Qed.
Lemma ndone_app a b : ndone (a ++ b) = ndone a + ndone b.
Proof. unfold ndone. rewrite filter_app, app_length. reflexivity. Qed.
Lemma q_len q : q_ok q -> length q = length (reqs q) + ndone q.
Proof.
  unfold ndone. induction 1 as [| e q H _ IH]; [reflexivity|]. cbn [reqs flat_map filter]. rewrite app_length. fold (reqs q).
  destruct H as [[c ->] | ->]; cbn [req_of m_sig m_cli N.eqb REQ DONE Pos.eqb length]; lia.
Qed.

(** The waiting line, in the order in which the clients will be served. *)
Definition line (b : bool) (q : list msg) (d : list nat) : list nat :=
  if b then d ++ reqs q else firstn 1 (reqs q) ++ d ++ skipn 1 (reqs q).

Record inv (n : nat) (s : sys) (b : bool) (d : list nat) (phs : list ph) : Prop := {
  i_n : length phs = n;
  i_st : s_st s = Some (if b then server_busy else server_idle);
  i_q : q_ok (s_q s);
  i_d : s_def s = map (mkMsg REQ) d;
  i_cli : s_cli s = clis 0 phs;
  i_tok : cnt holds phs + ndone (s_q s) = b2n b;
  i_rec : b = false -> d <> [] -> exists c q, s_q s = mkMsg REQ c :: q;
  i_line : Forall (fun c => exists i, c = S i /\ nth_error phs i = Some PReq) (line b (s_q s) d);
  i_nodup : NoDup (line b (s_q s) d);
  i_len : length (line b (s_q s) d) = cnt isReq phs;
  i_dyn : s_dyn s = cnt isReq phs + cnt isStart phs;
  i_ask : asked (s_log s) = served (s_log s) ++ line b (s_q s) d;
  i_own : exists w, owner None (s_log s) = Some w /\
            match w with
            | None => cnt isUsing phs = 0
            | Some c => exists i p, c = S i /\ nth_error phs i = Some p /\ isUsing p = true
            end;
  i_use : exists r, served (s_log s) = used (s_log s) ++ r /\
            (r = [] /\ cnt isStart phs = 0 \/ exists i, r = [S i] /\ nth_error phs i = Some PStart);
  i_fin : exists r, used (s_log s) = finished (s_log s) ++ r /\
            (r = [] /\ cnt isUsing phs = 0 \/ exists i p, r = [S i] /\ nth_error phs i = Some p /\ isUsing p = true);
  i_ntot : s_ntot s = (N.of_nat (length (served (s_log s))) mod 2 ^ 32)%N;
  i_ncr : length (s_ncr s) = n /\
          forall i, i < n -> nth_error (s_ncr s) i = Some (N.of_nat (count_occ Nat.eq_dec (served (s_log s)) (S i)) mod 2 ^ 32)%N }.

(** What the engine does with the events that occur. *)
Lemma t_idle_req : turn server_m server_init (Some server_idle) REQ = Ok (Some server_busy, [server_start]).
Proof. vm_compute. reflexivity. Qed.
Lemma t_busy_req : turn server_m server_init (Some server_busy) REQ = Ok (Some server_busy, [server_defer]).
Proof. vm_compute. reflexivity. Qed.
Lemma t_busy_done : turn server_m server_init (Some server_busy) DONE = Ok (Some server_idle, [server_end]).
Proof. vm_compute. reflexivity. Qed.
Lemma t_idle_tout : turn client_m client_init (Some client_idle) TOUT_REQ = Ok (Some client_waiting, [client_req]).
Proof. vm_compute. reflexivity. Qed.
Lemma t_wait_start : turn client_m client_init (Some client_waiting) START = Ok (Some client_using, [client_start]).
Proof. vm_compute. reflexivity. Qed.
Lemma t_use_tout : turn client_m client_init (Some client_using) TOUT_USING = Ok (Some client_idle, [client_end; client_delay_req]).
Proof. vm_compute. reflexivity. Qed.

Section Steps.
Context (h : shcfg) (n : nat).

Lemma on_cli_ok s phs i p f k' : s_cli s = clis 0 phs -> nth_error phs i = Some p -> f (cli_of i p) = Ok k' ->
  on_cli s i f = Ok (set_cli s (upd (clis 0 phs) i k')).
Proof.
  intros E H F. unfold on_cli. rewrite E.
  assert (Hn : nth_error (clis 0 phs) i = Some (cli_of i p)) by (rewrite nth_clis, H; reflexivity).
  rewrite (proj2 (rd_ok _ _ _) Hn). cbn [bind]. rewrite F. cbn [bind].
  rewrite wr_lt by (rewrite length_clis; eapply nth_some_lt; eauto). reflexivity.
Qed.
Lemma on_cli_g s phs i p (g : cli -> cli) : s_cli s = clis 0 phs -> nth_error phs i = Some p ->
  on_cli s i (fun k => Ok (g k)) = Ok (set_cli s (upd (clis 0 phs) i (g (cli_of i p)))).
Proof. intros E H. exact (on_cli_ok s phs i p (fun k => Ok (g k)) _ E H eq_refl). Qed.
Lemma upd_upd {A} (l : list A) : forall i x y, upd (upd l i x) i y = upd l i y.
Proof. induction l as [| a l IH]; intros [| i] x y; cbn [upd]; [reflexivity..|]. now rewrite IH. Qed.

Lemma on_cli_u s l i k (g : cli -> cli) : s_cli s = upd l i k -> i < length l ->
  on_cli s i (fun k => Ok (g k)) = Ok (set_cli s (upd l i (g k))).
Proof.
  intros E H. unfold on_cli. rewrite E, (proj2 (rd_ok _ _ _) (nth_upd_eq _ _ _ H)). cbn [bind].
  rewrite wr_lt by (rewrite length_upd; exact H). cbn [bind]. rewrite upd_upd. reflexivity.
Qed.

(** The six steps that change something, as equations. *)
Lemma nth_cli s phs i p : s_cli s = clis 0 phs -> nth_error phs i = Some p -> rd (s_cli s) i = Ok (cli_of i p).
Proof. intros E H. apply rd_ok. rewrite E, nth_clis, H. reflexivity. Qed.
Lemma turn_start s phs i q x : s_cli s = clis 0 phs -> nth_error phs i = Some PReq -> s_st s = Some server_idle ->
  s_q s = mkMsg REQ (S i) :: q -> s_dyn s < h_pool h -> 0 < h_cq h -> nth_error (s_ncr s) i = Some x ->
  server_turn h s = Ok (mkS (Some server_busy) q (s_def s) ((s_ntot s + 1) mod 2 ^ 32)%N (upd (s_ncr s) i ((x + 1) mod 2 ^ 32)%N)
                            (clis 0 (upd phs i PStart)) (s_dyn s) (s_log s ++ [BSvrStart (S i)])).
Proof.
  intros Ec Hi Est Eq Hp Hc Hx. unfold server_turn. rewrite Eq, Est. cbn [m_sig]. rewrite t_idle_req. cbn [bind acts].
  cbv beta iota delta [srv_act server_start]. unfold alloc. cbn [set_sq s_dyn].
  rewrite (proj2 (Nat.ltb_lt _ _) Hp), rassert_true. cbn [bind m_cli post_prio].
  rewrite (on_cli_ok _ phs i PReq _ (with_q (cli_of i PReq) [mkMsg START (S i)])); [| exact Ec | exact Hi |].
  2: { unfold put_fifo. cbn [cli_of c_q length]. rewrite (proj2 (Nat.ltb_lt _ _) Hc), rassert_true. reflexivity. }
  cbn [bind call set_cli set_dyn set_sq s_ncr s_st s_q s_def s_ntot s_cli s_dyn s_log].
  replace (S i - 1) with i by lia.
  rewrite (proj2 (rd_ok _ _ _) Hx). cbn [bind]. rewrite wr_lt by (eapply nth_some_lt; eauto). cbn [bind].
  unfold gc. cbn [dynamic existsb set_cnt set_sst set_dyn server_defer server_start Nat.eqb orb negb andb m_sig REQ N.eqb s_ncr s_st s_q s_def s_ntot s_cli s_dyn s_log].
  cbv [set_dyn set_sst set_cnt call set_cli set_sq]. cbn [s_ncr s_st s_q s_def s_ntot s_cli s_dyn s_log]. replace (S (s_dyn s) - 1) with (s_dyn s) by lia.
  change (with_q (cli_of i PReq) [mkMsg START (S i)]) with (cli_of (0 + i) PStart).
  rewrite upd_clis by (eapply nth_some_lt; eauto). reflexivity.
Qed.
Lemma turn_defer s q c : s_st s = Some server_busy -> s_q s = mkMsg REQ c :: q -> length (s_def s) < h_def h ->
  server_turn h s = Ok (mkS (Some server_busy) q (s_def s ++ [mkMsg REQ c]) (s_ntot s) (s_ncr s) (s_cli s) (s_dyn s) (s_log s)).
Proof.
  intros Est Eq Hd. unfold server_turn. rewrite Eq, Est. cbn [m_sig]. rewrite t_busy_req. cbn [bind acts].
  cbv beta iota delta [srv_act server_defer]. unfold put_fifo. cbn [set_sq s_def].
  rewrite (proj2 (Nat.ltb_lt _ _) Hd), rassert_true. reflexivity.
Qed.
Lemma turn_end s q : s_st s = Some server_busy -> s_q s = mkMsg DONE 0 :: q -> s_def s = [] ->
  server_turn h s = Ok (mkS (Some server_idle) q [] (s_ntot s) (s_ncr s) (s_cli s) (s_dyn s) (s_log s ++ [BSvrEnd])).
Proof.
  intros Est Eq Hd. unfold server_turn. rewrite Eq, Est. cbn [m_sig]. rewrite t_busy_done. cbn [bind acts].
  cbv beta iota delta [srv_act server_end]. unfold recall. cbn [set_sq s_def]. rewrite Hd. destruct s. cbn in Hd. subst. reflexivity.
Qed.
Lemma turn_recall s q c d : s_st s = Some server_busy -> s_q s = mkMsg DONE 0 :: q -> s_def s = mkMsg REQ c :: d -> length q < h_sq h ->
  server_turn h s = Ok (mkS (Some server_idle) (mkMsg REQ c :: q) d (s_ntot s) (s_ncr s) (s_cli s) (s_dyn s)
                            ((s_log s ++ [BSvrRecall c]) ++ [BSvrEnd])).
Proof.
  intros Est Eq Hd Hl. unfold server_turn. rewrite Eq, Est. cbn [m_sig]. rewrite t_busy_done. cbn [bind acts].
  cbv beta iota delta [srv_act server_end]. unfold recall. cbn [set_sq s_def s_q]. rewrite Hd. cbn [bind].
  unfold put_lifo. rewrite (proj2 (Nat.ltb_lt _ _) Hl), rassert_true. reflexivity.
Qed.
Lemma turn_req s phs i : s_cli s = clis 0 phs -> nth_error phs i = Some PDue -> s_dyn s < h_pool h -> length (s_q s) < h_sq h ->
  client_turn h s i = Ok (mkS (s_st s) (s_q s ++ [mkMsg REQ (S i)]) (s_def s) (s_ntot s) (s_ncr s) (clis 0 (upd phs i PReq))
                              (S (s_dyn s)) (s_log s ++ [BCliReq (S i)])).
Proof.
  intros Ec Hi Hp Hq. unfold client_turn. rewrite (nth_cli _ _ _ _ Ec Hi). cbn [bind cli_of c_q c_st m_sig]. rewrite t_idle_tout. cbn [bind].
  rewrite (on_cli_g _ phs i PDue _ Ec Hi). cbn [bind acts].
  assert (Hl : i < length phs) by (eapply nth_some_lt; eauto).
  cbv beta iota delta [cli_act client_req]. unfold alloc. cbn [call set_sq set_cli set_dyn s_st s_q s_def s_ntot s_ncr s_cli s_dyn s_log]. rewrite (proj2 (Nat.ltb_lt _ _) Hp), rassert_true. cbn [bind].
  unfold post_server, put_fifo. cbn [call set_sq set_cli set_dyn s_st s_q s_def s_ntot s_ncr s_cli s_dyn s_log]. rewrite (proj2 (Nat.ltb_lt _ _) Hq), rassert_true. cbn [bind].
  erewrite on_cli_u; [| reflexivity | rewrite length_clis; exact Hl]. cbn [bind].
  change (with_st (with_q (cli_of i PDue) []) (Some client_waiting)) with (cli_of (0 + i) PReq). rewrite upd_clis by exact Hl. reflexivity.
Qed.
Lemma turn_using s phs i : s_cli s = clis 0 phs -> nth_error phs i = Some PStart ->
  client_turn h s i = Ok (mkS (s_st s) (s_q s) (s_def s) (s_ntot s) (s_ncr s) (clis 0 (upd phs i PUse))
                              (s_dyn s - 1) (s_log s ++ [BCliUsing (S i)])).
Proof.
  intros Ec Hi. unfold client_turn. rewrite (nth_cli _ _ _ _ Ec Hi). cbn [bind cli_of c_q c_st m_sig]. rewrite t_wait_start. cbn [bind].
  rewrite (on_cli_g _ phs i PStart _ Ec Hi). cbn [bind acts].
  assert (Hl : i < length phs) by (eapply nth_some_lt; eauto).
  cbv beta iota delta [cli_act client_start].
  erewrite on_cli_u; [| reflexivity | rewrite length_clis; exact Hl]. cbn [bind].
  erewrite on_cli_u; [| reflexivity | rewrite length_clis; exact Hl]. cbn [bind].
  change (with_st (with_use (with_q (cli_of i PStart) []) true) (Some client_using)) with (cli_of (0 + i) PUse). rewrite upd_clis by exact Hl. reflexivity.
Qed.
Lemma turn_done s phs i : s_cli s = clis 0 phs -> nth_error phs i = Some PEnd -> length (s_q s) < h_sq h ->
  client_turn h s i = Ok (mkS (s_st s) (s_q s ++ [mkMsg DONE 0]) (s_def s) (s_ntot s) (s_ncr s) (clis 0 (upd phs i PIdle))
                              (s_dyn s) ((s_log s ++ [BCliDone (S i)]) ++ [BCliWait (S i)])).
Proof.
  intros Ec Hi Hq. unfold client_turn. rewrite (nth_cli _ _ _ _ Ec Hi). cbn [bind cli_of c_q c_st m_sig]. rewrite t_use_tout. cbn [bind].
  rewrite (on_cli_g _ phs i PEnd _ Ec Hi). cbn [bind acts].
  assert (Hl : i < length phs) by (eapply nth_some_lt; eauto).
  cbv beta iota delta [cli_act client_end]. unfold post_server, put_fifo. cbn [call set_sq set_cli set_dyn s_st s_q s_def s_ntot s_ncr s_cli s_dyn s_log].
  rewrite (proj2 (Nat.ltb_lt _ _) Hq), rassert_true. cbn [bind]. cbv beta iota delta [cli_act client_delay_req].
  erewrite on_cli_u; [| reflexivity | rewrite length_clis; exact Hl]. cbn [bind].
  erewrite on_cli_u; [| reflexivity | rewrite length_clis; exact Hl]. cbn [bind].
  change (with_st (with_wait (with_q (cli_of i PEnd) []) true) (Some client_idle)) with (cli_of (0 + i) PIdle). rewrite upd_clis by exact Hl. reflexivity.
Qed.
Lemma turn_none s phs i p : s_cli s = clis 0 phs -> nth_error phs i = Some p -> (p = PIdle \/ p = PReq \/ p = PUse) -> client_turn h s i = Ok s.
Proof.
  intros Ec Hi Hp. unfold client_turn. rewrite (nth_cli _ _ _ _ Ec Hi). destruct Hp as [-> | [-> | ->]]; reflexivity.
Qed.
Lemma turn_out s phs i : s_cli s = clis 0 phs -> nth_error phs i = None -> client_turn h s i = Fault (FUB UB_bounds) /\
  expire_wait h s i = Fault (FUB UB_bounds) /\ expire_use h s i = Fault (FUB UB_bounds).
Proof.
  intros Ec Hi. unfold client_turn, expire_wait, expire_use, rd. rewrite Ec, nth_clis, Hi. auto.
Qed.
Lemma tick_wait s phs i p : s_cli s = clis 0 phs -> nth_error phs i = Some p -> 0 < h_cq h ->
  expire_wait h s i = Ok (match p with PIdle => set_cli s (clis 0 (upd phs i PDue)) | _ => s end).
Proof.
  intros Ec Hi Hc. unfold expire_wait. rewrite (nth_cli _ _ _ _ Ec Hi). cbn [bind].
  destruct p; cbn [cli_of c_wait]; try reflexivity.
  rewrite (on_cli_g _ phs i PIdle _ Ec Hi). cbn [bind post_prio].
  assert (Hl : i < length phs) by (eapply nth_some_lt; eauto).
  unfold on_cli at 1. cbn [call set_sq set_cli set_dyn s_st s_q s_def s_ntot s_ncr s_cli s_dyn s_log]. rewrite (proj2 (rd_ok _ _ _) (nth_upd_eq _ _ _ ltac:(rewrite length_clis; exact Hl))).
  cbn [bind]. unfold put_fifo. cbn [with_wait cli_of c_q length]. rewrite (proj2 (Nat.ltb_lt _ _) Hc), rassert_true.
  cbn [bind]. rewrite wr_lt by (rewrite length_upd, length_clis; exact Hl). cbn [bind]. rewrite upd_upd.
  rewrite <- upd_clis by exact Hl. reflexivity.
Qed.
Lemma tick_use s phs i p : s_cli s = clis 0 phs -> nth_error phs i = Some p -> 0 < h_cq h ->
  expire_use h s i = Ok (match p with PUse => set_cli s (clis 0 (upd phs i PEnd)) | _ => s end).
Proof.
  intros Ec Hi Hc. unfold expire_use. rewrite (nth_cli _ _ _ _ Ec Hi). cbn [bind].
  destruct p; cbn [cli_of c_use]; try reflexivity.
  rewrite (on_cli_g _ phs i PUse _ Ec Hi). cbn [bind post_prio].
  assert (Hl : i < length phs) by (eapply nth_some_lt; eauto).
  unfold on_cli at 1. cbn [call set_sq set_cli set_dyn s_st s_q s_def s_ntot s_ncr s_cli s_dyn s_log]. rewrite (proj2 (rd_ok _ _ _) (nth_upd_eq _ _ _ ltac:(rewrite length_clis; exact Hl))).
  cbn [bind]. unfold put_fifo. cbn [with_use cli_of c_q length]. rewrite (proj2 (Nat.ltb_lt _ _) Hc), rassert_true.
  cbn [bind]. rewrite wr_lt by (rewrite length_upd, length_clis; exact Hl). cbn [bind]. rewrite upd_upd.
  rewrite <- upd_clis by exact Hl. reflexivity.
Qed.

Lemma cnt_holds l : cnt holds l = cnt isStart l + cnt isUsing l.
Proof. unfold cnt. induction l as [| x l IH]; [reflexivity|]. destruct x; cbn [filter holds isStart isUsing length]; lia. Qed.
Lemma asked_app a b : asked (a ++ b) = asked a ++ asked b. Proof. apply flat_map_app. Qed.
Lemma served_app a b : served (a ++ b) = served a ++ served b. Proof. apply flat_map_app. Qed.
Lemma used_app a b : used (a ++ b) = used a ++ used b. Proof. apply flat_map_app. Qed.
Lemma finished_app a b : finished (a ++ b) = finished a ++ finished b. Proof. apply flat_map_app. Qed.
Lemma owner_app a : forall w b v, owner w a = Some v -> owner w (a ++ b) = owner v b.
Proof.
  induction a as [| x a IH]; intros w b v H; cbn [app owner] in *; [injection H as ->; reflexivity|].
  destruct x; try (apply IH; exact H).
  - destruct w; [discriminate | apply IH; exact H].
  - destruct w as [q|]; [| discriminate]. destruct (Nat.eqb p q); [apply IH; exact H | discriminate].
Qed.
Lemma mod_succ a m : m <> 0%N -> ((N.of_nat a mod m + 1) mod m = N.of_nat (S a) mod m)%N.
Proof. intros H. rewrite N.add_mod_idemp_l by exact H. f_equal. lia. Qed.
Lemma line_app q d c b : (b = false -> d <> [] -> exists c q', q = mkMsg REQ c :: q') ->
  line b (q ++ [mkMsg REQ c]) d = line b q d ++ [c].
Proof.
  intros H. unfold line. rewrite reqs_app. cbn [reqs flat_map req_of m_sig m_cli REQ N.eqb app].
  destruct b; [apply app_assoc|].
  destruct (reqs q) as [| r rest] eqn:E.
  - cbn [app firstn skipn]. destruct d as [| x d]; [reflexivity|]. destruct (H eq_refl) as (c' & q' & ->); [discriminate|]. discriminate.
  - cbn [app firstn skipn]. rewrite app_assoc. reflexivity.
Qed.
Lemma line_done q d b : line b (q ++ [mkMsg DONE 0]) d = line b q d.
Proof. unfold line. rewrite reqs_app. cbn [reqs flat_map req_of m_sig m_cli REQ DONE N.eqb app]. rewrite app_nil_r. reflexivity. Qed.

Definition room (s : sys) (b : bool) (phs : list ph) (o : op) : Prop :=
  0 < h_cq h /\
  match o with
  | OServer => (b = false -> s_q s <> [] -> s_dyn s < h_pool h) /\
               (forall c q, b = true -> s_q s = mkMsg REQ c :: q -> length (s_def s) < h_def h) /\
               (forall q, b = true -> s_q s = mkMsg DONE 0 :: q -> s_def s <> [] -> length q < h_sq h)
  | OClient i => i < n /\ (nth_error phs i = Some PDue -> s_dyn s < h_pool h /\ length (s_q s) < h_sq h) /\
                 (nth_error phs i = Some PEnd -> length (s_q s) < h_sq h)
  | OWait i | OUse i => i < n
  | OPause => False
  end.

(** Facts about the counts when one client changes its phase. *)
Ltac counts Hi p' :=
  let H := fresh in let H1 := fresh in let H2 := fresh in let H3 := fresh in
  pose proof (cnt_upd holds _ _ _ p' Hi) as H; pose proof (cnt_upd isReq _ _ _ p' Hi) as H1;
  pose proof (cnt_upd isStart _ _ _ p' Hi) as H2; pose proof (cnt_upd isUsing _ _ _ p' Hi) as H3;
  cbn [holds isReq isStart isUsing b2n] in H, H1, H2, H3.

(** Only the phase of a client changes, not its being in line or holding. *)
Lemma inv_quiet s b d phs i p p' : inv n s b d phs -> nth_error phs i = Some p ->
  isReq p = isReq p' -> isStart p = isStart p' -> isUsing p = isUsing p' -> isReq p = false -> isStart p = false ->
  inv n (set_cli s (clis 0 (upd phs i p'))) b d (upd phs i p').
Proof.
  intros I Hi E1 E2 E3 R1 R2. assert (Hl : i < length phs) by (eapply nth_some_lt; eauto). destruct I.
  assert (C1 : cnt isReq (upd phs i p') = cnt isReq phs) by (pose proof (cnt_upd isReq _ _ _ p' Hi); rewrite E1 in *; lia).
  assert (C2 : cnt isStart (upd phs i p') = cnt isStart phs) by (pose proof (cnt_upd isStart _ _ _ p' Hi); rewrite E2 in *; lia).
  assert (C3 : cnt isUsing (upd phs i p') = cnt isUsing phs) by (pose proof (cnt_upd isUsing _ _ _ p' Hi); rewrite E3 in *; lia).
  assert (N : forall j q, nth_error phs j = Some q -> isReq q = true \/ isStart q = true -> nth_error (upd phs i p') j = Some q).
  { intros j q Hj Hq. rewrite nth_upd_ne; [exact Hj|]. intros <-. rewrite Hi in Hj. injection Hj as ->. destruct Hq; congruence. }
  assert (U : forall j q, nth_error phs j = Some q -> isUsing q = true -> exists q', nth_error (upd phs i p') j = Some q' /\ isUsing q' = true).
  { intros j q Hj Hq. destruct (Nat.eq_dec i j) as [<- | Hne].
    - exists p'. rewrite nth_upd_eq by exact Hl. rewrite Hi in Hj. injection Hj as ->. split; [reflexivity | congruence].
    - exists q. rewrite nth_upd_ne; auto. }
  constructor; cbn [set_cli s_st s_q s_def s_ntot s_ncr s_cli s_dyn s_log]; rewrite ?length_upd, ?cnt_holds, ?C1, ?C2, ?C3; auto.
  - rewrite <- cnt_holds. exact i_tok0.
  - eapply Forall_impl; [| exact i_line0]. intros c (j & -> & Hj). exists j. split; [reflexivity|]. apply N; auto.
  - destruct i_own0 as (w & Hw & K). exists w. split; [exact Hw|]. destruct w as [c|]; [| exact K].
    destruct K as (j & q & -> & Hj & Hq). destruct (U _ _ Hj Hq) as (q' & A & B). eauto.
  - destruct i_use0 as (r & Hr & K). exists r. split; [exact Hr|]. destruct K as [K | (j & -> & Hj)]; [left; exact K | right].
    exists j. split; [reflexivity|]. apply N; auto.
  - destruct i_fin0 as (r & Hr & K). exists r. split; [exact Hr|]. destruct K as [K | (j & q & -> & Hj & Hq)]; [left; exact K | right].
    destruct (U _ _ Hj Hq) as (q' & A & B). eauto 6.
Qed.

Lemma line_keep phs i p' l : Forall (fun c => exists j, c = S j /\ nth_error phs j = Some PReq) l -> ~ In (S i) l ->
  Forall (fun c => exists j, c = S j /\ nth_error (upd phs i p') j = Some PReq) l.
Proof.
  rewrite !Forall_forall. intros H N c Hc. destruct (H c Hc) as (j & -> & Hj). exists j. split; [reflexivity|].
  rewrite nth_upd_ne; [exact Hj|]. intros ->. auto.
Qed.

Lemma inv_start s d phs i q x : inv n s false d phs -> s_q s = mkMsg REQ (S i) :: q -> nth_error phs i = Some PReq ->
  nth_error (s_ncr s) i = Some x ->
  inv n (mkS (Some server_busy) q (s_def s) ((s_ntot s + 1) mod 2 ^ 32)%N (upd (s_ncr s) i ((x + 1) mod 2 ^ 32)%N)
             (clis 0 (upd phs i PStart)) (s_dyn s) (s_log s ++ [BSvrStart (S i)])) true d (upd phs i PStart).
Proof.
  intros I Eq Hi Hx. assert (Hl : i < length phs) by (eapply nth_some_lt; eauto). destruct I. rewrite Eq in *.
  counts Hi PStart. pose proof (cnt_holds phs). pose proof (cnt_holds (upd phs i PStart)).
  unfold line in *. cbn [reqs flat_map req_of m_sig m_cli REQ N.eqb app firstn skipn] in *. fold (reqs q) in *.
  inversion_clear i_nodup0. inversion_clear i_line0. cbn [length] in i_len0. unfold ndone in i_tok0. cbn [filter m_sig REQ DONE N.eqb b2n] in i_tok0. fold (ndone q) in i_tok0.
  assert (Hne : forall j p, nth_error phs j = Some p -> p <> PReq -> nth_error (upd phs i PStart) j = Some p).
  { intros j p Hj Hp. rewrite nth_upd_ne; [exact Hj|]. intros <-. congruence. }
  constructor; cbn [s_st s_q s_def s_ntot s_ncr s_cli s_dyn s_log]; rewrite ?length_upd; auto.
  - now inversion_clear i_q0.
  - cbn [b2n]. lia.
  - discriminate.
  - unfold line. apply line_keep; assumption.
  - unfold line. lia.
  - lia.
  - rewrite asked_app, served_app, i_ask0. cbn. unfold line. rewrite app_nil_r, <- app_assoc. reflexivity.
  - destruct i_own0 as (w & Hw & K). exists w. split; [rewrite (owner_app _ _ _ _ Hw); reflexivity|].
    destruct w as [c|]; [| lia]. destruct K as (j & p & -> & Hj & Hp). exists j, p. split; [reflexivity|]. split; [| exact Hp]. apply Hne; [exact Hj | intros ->; discriminate].
  - destruct i_use0 as (r & Hr & K). exists [S i]. rewrite served_app, used_app, Hr. cbn. rewrite app_nil_r. split.
    + f_equal. destruct K as [[-> _] | (j & -> & Hj)]; [rewrite app_nil_r; reflexivity|].
      pose proof (cnt_pos isStart _ _ _ Hj eq_refl). lia.
    + right. exists i. split; [reflexivity | apply nth_upd_eq; exact Hl].
  - destruct i_fin0 as (r & Hr & K). exists r. rewrite used_app, finished_app, !app_nil_r. split; [exact Hr|].
    destruct K as [[-> K] | (j & p & -> & Hj & Hp)]; [left; split; [reflexivity | lia] | right].
    exists j, p. split; [reflexivity|]. split; [| exact Hp]. apply Hne; [exact Hj | intros ->; discriminate].
  - rewrite served_app, app_length. cbn [served flat_map app length]. rewrite i_ntot0, mod_succ by discriminate. rewrite Nat.add_1_r. reflexivity.
  - destruct i_ncr0 as [A B]. split; [exact A|]. intros j Hj. rewrite served_app, count_occ_app. cbn [served flat_map app count_occ].
    rewrite nth_upd. destruct (Nat.eqb_spec i j) as [<- | Hne'].
    + rewrite (proj2 (Nat.ltb_lt _ _)) by lia. cbn [andb]. destruct (Nat.eq_dec (S i) (S i)); [| congruence].
      rewrite (B i Hj) in Hx. injection Hx as <-. rewrite mod_succ by discriminate. rewrite Nat.add_1_r. reflexivity.
    + cbn [andb]. destruct (Nat.eq_dec (S i) (S j)); [congruence|]. rewrite Nat.add_0_r. apply B. exact Hj.
Qed.
Lemma inv_defer s d phs c q : inv n s true d phs -> s_q s = mkMsg REQ c :: q ->
  inv n (mkS (Some server_busy) q (s_def s ++ [mkMsg REQ c]) (s_ntot s) (s_ncr s) (s_cli s) (s_dyn s) (s_log s)) true (d ++ [c]) phs.
Proof.
  intros I Eq. destruct I. rewrite Eq in *. unfold line in *. cbn [reqs flat_map req_of m_sig m_cli REQ N.eqb app] in *. fold (reqs q) in *.
  assert (E : (d ++ [c]) ++ reqs q = d ++ c :: reqs q) by (rewrite <- app_assoc; reflexivity).
  constructor; cbn [s_st s_q s_def s_ntot s_ncr s_cli s_dyn s_log]; unfold line; rewrite ?E; auto.
  - now inversion_clear i_q0.
  - rewrite i_d0, map_app. reflexivity.
  - discriminate.
Qed.
Lemma inv_end s phs q d : inv n s true d phs -> s_q s = mkMsg DONE 0 :: q ->
  cnt holds phs = 0 /\ ndone q = 0.
Proof.
  intros I Eq. destruct I. rewrite Eq in *. unfold ndone in *. cbn [filter m_sig DONE N.eqb Pos.eqb length b2n] in i_tok0. lia.
Qed.
Lemma inv_idle s phs q : inv n s true [] phs -> s_q s = mkMsg DONE 0 :: q ->
  inv n (mkS (Some server_idle) q [] (s_ntot s) (s_ncr s) (s_cli s) (s_dyn s) (s_log s ++ [BSvrEnd])) false [] phs.
Proof.
  intros I Eq. destruct (inv_end _ _ _ _ I Eq) as [T1 T2]. destruct I. rewrite Eq in *. unfold line in *.
  cbn [reqs flat_map req_of m_sig m_cli REQ DONE N.eqb Pos.eqb app] in *. fold (reqs q) in *.
  assert (E : firstn 1 (reqs q) ++ skipn 1 (reqs q) = reqs q) by apply firstn_skipn.
  constructor; cbn [s_st s_q s_def s_ntot s_ncr s_cli s_dyn s_log]; unfold line; cbn [app]; rewrite ?E; auto.
  - now inversion_clear i_q0.
  - rewrite T1, T2. reflexivity.
  - congruence.
  - rewrite asked_app, served_app. cbn [asked served flat_map]. rewrite !app_nil_r. exact i_ask0.
  - destruct i_own0 as (w & Hw & K). exists w. split; [rewrite (owner_app _ _ _ _ Hw); reflexivity | exact K].
  - rewrite served_app, used_app. cbn [served used flat_map]. rewrite !app_nil_r. exact i_use0.
  - rewrite finished_app, used_app. cbn [finished used flat_map]. rewrite !app_nil_r. exact i_fin0.
  - rewrite served_app. cbn [served flat_map]. rewrite app_nil_r. exact i_ntot0.
  - rewrite served_app. cbn [served flat_map]. rewrite app_nil_r. exact i_ncr0.
Qed.
Lemma inv_recall s phs q c d : inv n s true (c :: d) phs -> s_q s = mkMsg DONE 0 :: q ->
  inv n (mkS (Some server_idle) (mkMsg REQ c :: q) (map (mkMsg REQ) d) (s_ntot s) (s_ncr s) (s_cli s) (s_dyn s) ((s_log s ++ [BSvrRecall c]) ++ [BSvrEnd])) false d phs.
Proof.
  intros I Eq. destruct (inv_end _ _ _ _ I Eq) as [T1 T2]. destruct I. rewrite Eq in *. unfold line in *.
  cbn [reqs flat_map req_of m_sig m_cli REQ DONE N.eqb Pos.eqb app] in *. fold (reqs q) in *.
  rewrite <- (app_assoc (s_log s)). cbn [app].
  constructor; cbn [s_st s_q s_def s_ntot s_ncr s_cli s_dyn s_log]; unfold line; cbn [reqs flat_map req_of m_sig m_cli REQ N.eqb app firstn skipn]; fold (reqs q); auto.
  - constructor; [left; eauto | now inversion_clear i_q0].
  - unfold ndone. cbn [filter m_sig DONE REQ N.eqb Pos.eqb]. fold (ndone q). rewrite T1, T2. reflexivity.
  - eauto.
  - rewrite asked_app, served_app. cbn [asked served flat_map app]. rewrite !app_nil_r. exact i_ask0.
  - destruct i_own0 as (w & Hw & K). exists w. split; [rewrite (owner_app _ _ _ _ Hw); reflexivity | exact K].
  - rewrite served_app, used_app. cbn [served used flat_map app]. rewrite !app_nil_r. exact i_use0.
  - rewrite finished_app, used_app. cbn [finished used flat_map app]. rewrite !app_nil_r. exact i_fin0.
  - rewrite served_app. cbn [served flat_map app]. rewrite app_nil_r. exact i_ntot0.
  - rewrite served_app. cbn [served flat_map app]. rewrite app_nil_r. exact i_ncr0.
Qed.
Lemma inv_req s b d phs i : inv n s b d phs -> nth_error phs i = Some PDue ->
  inv n (mkS (s_st s) (s_q s ++ [mkMsg REQ (S i)]) (s_def s) (s_ntot s) (s_ncr s) (clis 0 (upd phs i PReq))
             (S (s_dyn s)) (s_log s ++ [BCliReq (S i)])) b d (upd phs i PReq).
Proof.
  intros I Hi. assert (Hl : i < length phs) by (eapply nth_some_lt; eauto). destruct I.
  counts Hi PReq. pose proof (cnt_holds phs). pose proof (cnt_holds (upd phs i PReq)).
  assert (NI : ~ In (S i) (line b (s_q s) d)).
  { intros Hin. rewrite Forall_forall in i_line0. destruct (i_line0 _ Hin) as (j & [= <-] & Hj). congruence. }
  assert (Hne : forall j p, nth_error phs j = Some p -> p <> PDue -> nth_error (upd phs i PReq) j = Some p).
  { intros j p Hj Hp. rewrite nth_upd_ne; [exact Hj|]. intros <-. congruence. }
  constructor; cbn [s_st s_q s_def s_ntot s_ncr s_cli s_dyn s_log]; rewrite ?length_upd, ?line_app by exact i_rec0; auto.
  - apply Forall_app. split; [exact i_q0|]. constructor; [left; eauto | constructor].
  - rewrite ndone_app. cbn [ndone filter m_sig REQ DONE N.eqb length]. lia.
  - intros Hb Hd. destruct (i_rec0 Hb Hd) as (c & q & ->). cbn [app]. eauto.
  - apply Forall_app. split; [apply line_keep; assumption|]. constructor; [| constructor]. exists i. split; [reflexivity | apply nth_upd_eq; exact Hl].
  - apply NoDup_Add with (a := S i) (l := line b (s_q s) d); [| split; assumption]. rewrite <- (app_nil_r (line b (s_q s) d)) at 1. apply Add_app.
  - rewrite app_length. cbn [length]. lia.
  - lia.
  - rewrite asked_app, served_app, i_ask0. cbn [asked served flat_map app]. rewrite app_nil_r, <- app_assoc. reflexivity.
  - destruct i_own0 as (w & Hw & K). exists w. split; [rewrite (owner_app _ _ _ _ Hw); reflexivity|].
    destruct w as [c|]; [| lia]. destruct K as (j & p & -> & Hj & Hp). exists j, p. split; [reflexivity|]. split; [| exact Hp]. apply Hne; [exact Hj | intros ->; discriminate].
  - destruct i_use0 as (r & Hr & K). exists r. rewrite served_app, used_app. cbn [served used flat_map app]. rewrite !app_nil_r. split; [exact Hr|].
    destruct K as [[-> K] | (j & -> & Hj)]; [left; split; [reflexivity | lia] | right]. exists j. split; [reflexivity|]. apply Hne; [exact Hj | discriminate].
  - destruct i_fin0 as (r & Hr & K). exists r. rewrite used_app, finished_app, !app_nil_r. split; [exact Hr|].
    destruct K as [[-> K] | (j & p & -> & Hj & Hp)]; [left; split; [reflexivity | lia] | right].
    exists j, p. split; [reflexivity|]. split; [| exact Hp]. apply Hne; [exact Hj | intros ->; discriminate].
  - rewrite served_app. cbn [served flat_map]. rewrite app_nil_r. exact i_ntot0.
  - rewrite served_app. cbn [served flat_map]. rewrite app_nil_r. exact i_ncr0.
Qed.
Lemma inv_using s b d phs i : inv n s b d phs -> nth_error phs i = Some PStart ->
  inv n (mkS (s_st s) (s_q s) (s_def s) (s_ntot s) (s_ncr s) (clis 0 (upd phs i PUse))
             (s_dyn s - 1) (s_log s ++ [BCliUsing (S i)])) b d (upd phs i PUse).
Proof.
  intros I Hi. assert (Hl : i < length phs) by (eapply nth_some_lt; eauto). destruct I.
  counts Hi PUse. pose proof (cnt_holds phs). pose proof (cnt_holds (upd phs i PUse)). pose proof (cnt_pos isStart _ _ _ Hi eq_refl).
  assert (T : cnt holds phs = 1 /\ cnt isUsing phs = 0) by (destruct b; cbn [b2n] in i_tok0; lia). destruct T as [T1 T2].
  assert (NI : ~ In (S i) (line b (s_q s) d)).
  { intros Hin. rewrite Forall_forall in i_line0. destruct (i_line0 _ Hin) as (j & [= <-] & Hj). congruence. }
  constructor; cbn [s_st s_q s_def s_ntot s_ncr s_cli s_dyn s_log]; rewrite ?length_upd; auto.
  - lia.
  - apply line_keep; assumption.
  - lia.
  - lia.
  - rewrite asked_app, served_app. cbn [asked served flat_map app]. rewrite !app_nil_r. exact i_ask0.
  - destruct i_own0 as (w & Hw & K). exists (Some (S i)). rewrite (owner_app _ _ _ _ Hw). cbn [owner].
    destruct w as [c|]; [destruct K as (j & p & -> & Hj & Hp); pose proof (cnt_pos isUsing _ _ _ Hj Hp); lia|].
    split; [reflexivity|]. exists i, PUse. split; [reflexivity|]. split; [apply nth_upd_eq; exact Hl | reflexivity].
  - destruct i_use0 as (r & Hr & K). exists []. rewrite served_app, used_app. cbn [served used flat_map app]. rewrite !app_nil_r.
    destruct K as [[-> K] | (j & -> & Hj)]; [lia|]. split; [| left; split; [reflexivity | lia]].
    destruct (Nat.eq_dec i j) as [<- | Hne]; [exact Hr|]. pose proof (cnt_two isStart _ _ _ _ _ Hi Hj eq_refl eq_refl Hne). lia.
  - destruct i_fin0 as (r & Hr & K). exists [S i]. rewrite used_app, finished_app. cbn [finished used flat_map app]. rewrite !app_nil_r.
    destruct K as [[-> K] | (j & p & -> & Hj & Hp)]; [| pose proof (cnt_pos isUsing _ _ _ Hj Hp); lia].
    rewrite app_nil_r in Hr. rewrite Hr. split; [reflexivity|]. right. exists i, PUse. split; [reflexivity|]. split; [apply nth_upd_eq; exact Hl | reflexivity].
  - rewrite served_app. cbn [served flat_map]. rewrite app_nil_r. exact i_ntot0.
  - rewrite served_app. cbn [served flat_map]. rewrite app_nil_r. exact i_ncr0.
Qed.
Lemma inv_done s b d phs i : inv n s b d phs -> nth_error phs i = Some PEnd ->
  inv n (mkS (s_st s) (s_q s ++ [mkMsg DONE 0]) (s_def s) (s_ntot s) (s_ncr s) (clis 0 (upd phs i PIdle))
             (s_dyn s) ((s_log s ++ [BCliDone (S i)]) ++ [BCliWait (S i)])) b d (upd phs i PIdle).
Proof.
  intros I Hi. assert (Hl : i < length phs) by (eapply nth_some_lt; eauto). destruct I.
  counts Hi PIdle. pose proof (cnt_holds phs). pose proof (cnt_holds (upd phs i PIdle)). pose proof (cnt_pos isUsing _ _ _ Hi eq_refl).
  assert (T : cnt holds phs = 1 /\ cnt isStart phs = 0) by (destruct b; cbn [b2n] in i_tok0; lia). destruct T as [T1 T2].
  assert (NI : ~ In (S i) (line b (s_q s) d)).
  { intros Hin. rewrite Forall_forall in i_line0. destruct (i_line0 _ Hin) as (j & [= <-] & Hj). congruence. }
  rewrite <- (app_assoc (s_log s)). cbn [app].
  constructor; cbn [s_st s_q s_def s_ntot s_ncr s_cli s_dyn s_log]; rewrite ?length_upd, ?line_done; auto.
  - apply Forall_app. split; [exact i_q0|]. constructor; [right; reflexivity | constructor].
  - rewrite ndone_app. cbn [ndone filter m_sig DONE N.eqb Pos.eqb length]. lia.
  - intros Hb Hd. destruct (i_rec0 Hb Hd) as (c & q & ->). cbn [app]. eauto.
  - apply line_keep; assumption.
  - lia.
  - lia.
  - rewrite asked_app, served_app. cbn [asked served flat_map app]. rewrite !app_nil_r. exact i_ask0.
  - destruct i_own0 as (w & Hw & K). exists None. rewrite (owner_app _ _ _ _ Hw). cbn [owner].
    destruct w as [c|]; [| lia]. destruct K as (j & p & -> & Hj & Hp).
    destruct (Nat.eq_dec i j) as [<- | Hne]; [rewrite Nat.eqb_refl; split; [reflexivity | lia]|].
    pose proof (cnt_two isUsing _ _ _ _ _ Hi Hj eq_refl Hp Hne). lia.
  - destruct i_use0 as (r & Hr & K). exists []. rewrite served_app, used_app. cbn [served used flat_map app]. rewrite !app_nil_r.
    destruct K as [[-> K] | (j & -> & Hj)]; [rewrite app_nil_r in Hr; split; [exact Hr | left; split; [reflexivity | lia]]|].
    pose proof (cnt_pos isStart _ _ _ Hj eq_refl). lia.
  - destruct i_fin0 as (r & Hr & K). exists []. rewrite used_app, finished_app. cbn [finished used flat_map app]. rewrite !app_nil_r.
    destruct K as [[-> K] | (j & p & -> & Hj & Hp)]; [lia|]. split; [| left; split; [reflexivity | lia]].
    destruct (Nat.eq_dec i j) as [<- | Hne]; [exact Hr|]. pose proof (cnt_two isUsing _ _ _ _ _ Hi Hj eq_refl Hp Hne). lia.
  - rewrite served_app. cbn [served flat_map]. rewrite app_nil_r. exact i_ntot0.
  - rewrite served_app. cbn [served flat_map]. rewrite app_nil_r. exact i_ncr0.
Qed.

(** What a step does to the server's queue and to the phases. *)
Inductive ast (s : sys) : bool -> list nat -> list ph -> op -> sys -> bool -> list nat -> list ph -> Prop :=
| a_server b d phs : s_q s = [] -> ast s b d phs OServer s b d phs
| a_client b d phs i p : nth_error phs i = Some p -> (p = PIdle \/ p = PReq \/ p = PUse) -> ast s b d phs (OClient i) s b d phs
| a_wait b d phs i p : nth_error phs i = Some p -> p <> PIdle -> ast s b d phs (OWait i) s b d phs
| a_use b d phs i p : nth_error phs i = Some p -> p <> PUse -> ast s b d phs (OUse i) s b d phs
| a_start d phs i q s' : s_q s = mkMsg REQ (S i) :: q -> nth_error phs i = Some PReq -> s_q s' = q ->
    ast s false d phs OServer s' true d (upd phs i PStart)
| a_defer d phs c q s' : s_q s = mkMsg REQ c :: q -> s_q s' = q -> ast s true d phs OServer s' true (d ++ [c]) phs
| a_end phs q s' : s_q s = mkMsg DONE 0 :: q -> s_q s' = q -> ast s true [] phs OServer s' false [] phs
| a_recall c d phs q s' : s_q s = mkMsg DONE 0 :: q -> s_q s' = mkMsg REQ c :: q -> ast s true (c :: d) phs OServer s' false d phs
| a_req b d phs i s' : nth_error phs i = Some PDue -> s_q s' = s_q s ++ [mkMsg REQ (S i)] -> ast s b d phs (OClient i) s' b d (upd phs i PReq)
| a_using b d phs i s' : nth_error phs i = Some PStart -> s_q s' = s_q s -> ast s b d phs (OClient i) s' b d (upd phs i PUse)
| a_done b d phs i s' : nth_error phs i = Some PEnd -> s_q s' = s_q s ++ [mkMsg DONE 0] -> ast s b d phs (OClient i) s' b d (upd phs i PIdle)
| a_due b d phs i s' : nth_error phs i = Some PIdle -> s_q s' = s_q s -> ast s b d phs (OWait i) s' b d (upd phs i PDue)
| a_fin b d phs i s' : nth_error phs i = Some PUse -> s_q s' = s_q s -> ast s b d phs (OUse i) s' b d (upd phs i PEnd).

Lemma step_inv s b d phs o : inv n s b d phs -> room s b phs o ->
  exists s' b' d' phs', step h s o = Ok s' /\ inv n s' b' d' phs' /\ ast s b d phs o s' b' d' phs'.
Proof.
  intros I [Hc R]. pose proof (i_n _ _ _ _ _ I) as En. pose proof (i_cli _ _ _ _ _ I) as Ec. pose proof (i_st _ _ _ _ _ I) as Est.
  destruct o as [| i | i | i |]; cbn [step].
  - destruct R as (R1 & R2 & R3). destruct (s_q s) as [| e q] eqn:Eq.
    { exists s, b, d, phs. split; [unfold server_turn; rewrite Eq; reflexivity|]. split; [exact I | constructor; exact Eq]. }
    pose proof (i_q _ _ _ _ _ I) as Q. rewrite Eq in Q. inversion_clear Q as [| ? ? He Hq].
    destruct He as [[c ->] | ->].
    + destruct b.
      * rewrite (turn_defer s q c Est Eq) by (apply (R2 c q); auto).
        do 4 eexists. split; [reflexivity|]. split; [eapply inv_defer; eassumption | eapply a_defer; [eassumption | reflexivity]].
      * pose proof (i_line _ _ _ _ _ I) as L. rewrite Eq in L. unfold line in L. cbn in L. inversion L as [| ? ? HL _]. destruct HL as (i & -> & Hi).
        assert (Hl : i < n) by (rewrite <- En; eapply nth_some_lt; eauto).
        pose proof (proj2 (i_ncr _ _ _ _ _ I) i Hl) as Hx.
        rewrite (turn_start s phs i q _ Ec Hi Est Eq (R1 eq_refl ltac:(discriminate)) Hc Hx).
        do 4 eexists. split; [reflexivity|]. split; [eapply inv_start; eassumption | eapply a_start; [eassumption.. | reflexivity]].
    + destruct b.
      * pose proof (i_d _ _ _ _ _ I) as Ed. destruct d as [| c d].
        -- rewrite (turn_end s q Est Eq Ed). do 4 eexists. split; [reflexivity|]. split; [eapply inv_idle; eassumption | eapply a_end; [eassumption | reflexivity]].
        -- cbn [map] in Ed. rewrite (turn_recall s q c _ Est Eq Ed) by (apply (R3 q); auto; rewrite Ed; discriminate).
           do 4 eexists. split; [reflexivity|]. split; [eapply inv_recall; eassumption | eapply a_recall; [eassumption | reflexivity]].
      * pose proof (i_tok _ _ _ _ _ I) as T. rewrite Eq in T. unfold ndone in T. cbn [filter m_sig DONE N.eqb Pos.eqb length b2n] in T. lia.
  - destruct R as (Hn & R1 & R2). destruct (nth_error phs i) as [p|] eqn:Hi; [| apply nth_error_None in Hi; lia].
    destruct p.
    1,3,5: rewrite (turn_none s phs i _ Ec Hi) by auto; do 4 eexists; split; [reflexivity|]; split; [exact I | eapply a_client; [exact Hi | auto]].
    + destruct (R1 eq_refl) as [A B]. rewrite (turn_req s phs i Ec Hi A B). do 4 eexists. split; [reflexivity|].
      split; [eapply inv_req; eassumption | eapply a_req; [eassumption | reflexivity]].
    + rewrite (turn_using s phs i Ec Hi). do 4 eexists. split; [reflexivity|]. split; [eapply inv_using; eassumption | eapply a_using; [eassumption | reflexivity]].
    + rewrite (turn_done s phs i Ec Hi (R2 eq_refl)). do 4 eexists. split; [reflexivity|].
      split; [eapply inv_done; eassumption | eapply a_done; [eassumption | reflexivity]].
  - destruct (nth_error phs i) as [p|] eqn:Hi; [| apply nth_error_None in Hi; lia].
    rewrite (tick_wait s phs i p Ec Hi Hc). destruct p.
    2-6: do 4 eexists; split; [reflexivity|]; split; [exact I | eapply a_wait; [exact Hi | discriminate]].
    do 4 eexists. split; [reflexivity|]. split; [eapply inv_quiet; try eassumption; reflexivity | eapply a_due; [eassumption | reflexivity]].
  - destruct (nth_error phs i) as [p|] eqn:Hi; [| apply nth_error_None in Hi; lia].
    rewrite (tick_use s phs i p Ec Hi Hc). destruct p.
    1-4,6: do 4 eexists; split; [reflexivity|]; split; [exact I | eapply a_use; [exact Hi | discriminate]].
    do 4 eexists. split; [reflexivity|]. split; [eapply inv_quiet; try eassumption; reflexivity | eapply a_fin; [eassumption | reflexivity]].
  - destruct R.
Qed.

Definition isDyn p := match p with PReq | PStart => true | _ => false end.
Lemma cnt_dyn l : cnt isDyn l = cnt isReq l + cnt isStart l.
Proof. unfold cnt. induction l as [| x l IH]; [reflexivity|]. destruct x; cbn [filter isDyn isStart isReq length]; lia. Qed.

(** There is room in a roomy configuration. *)
Definition op_ok (o : op) : Prop := match o with OServer => True | OClient i | OWait i | OUse i => i < n | OPause => False end.
Lemma line_len b q d : length (line b q d) = length d + length (reqs q).
Proof.
  unfold line. destruct b; rewrite ?app_length; [lia|].
  pose proof (firstn_skipn 1 (reqs q)) as E. apply (f_equal (@length nat)) in E. rewrite app_length in E. lia.
Qed.
Lemma inv_room s b d phs o : inv n s b d phs -> roomy h n -> op_ok o -> room s b phs o.
Proof.
  intros I (H1 & H2 & H3 & H4) O. split; [lia|].
  pose proof (i_n _ _ _ _ _ I) as En. pose proof (i_len _ _ _ _ _ I) as L. rewrite line_len in L.
  pose proof (q_len _ (i_q _ _ _ _ _ I)) as Lq. pose proof (i_tok _ _ _ _ _ I) as T. pose proof (i_dyn _ _ _ _ _ I) as D.
  pose proof (cnt_le isReq phs). pose proof (cnt_holds phs).
  assert (Ed : length (s_def s) = length d) by (rewrite (i_d _ _ _ _ _ I); apply map_length).
  destruct o as [| i | i | i |]; try exact O.
  - split; [| split].
    + intros -> _. cbn [b2n] in T. lia.
    + intros c q -> Eq. rewrite Eq in L. cbn in L. rewrite Ed. lia.
    + intros q -> Eq Hd. rewrite Eq in *. cbn [length] in Lq. unfold ndone in T, Lq. cbn [filter m_sig DONE N.eqb Pos.eqb length b2n] in T, Lq.
      cbn [reqs flat_map req_of m_sig DONE REQ N.eqb app] in L, Lq. fold (reqs q) in *. lia.
  - split; [exact O|]. split; intros Hi.
    + pose proof (cnt_lt isReq _ _ _ Hi eq_refl). destruct b; cbn [b2n] in T; [| lia].
      split; [| lia]. pose proof (cnt_dyn phs). pose proof (cnt_le isDyn phs). lia.
    + pose proof (cnt_lt isReq _ _ _ Hi eq_refl). pose proof (cnt_pos holds _ _ _ Hi eq_refl). destruct b; cbn [b2n] in T; lia.
Qed.

(** The same under the native scheduler. *)
Definition few (s : sys) (phs : list ph) : Prop := length (s_q s) <= 1 /\ cnt isReq phs < n.
Lemma inv_room_prio s b d phs o : inv n s b d phs -> few s phs -> fitting h n -> op_ok o ->
  (match o with OClient _ => s_q s = [] | _ => True end) -> room s b phs o.
Proof.
  intros I [F1 F2] (H1 & H2 & H3 & H4 & H5) O P. split; [lia|].
  pose proof (i_n _ _ _ _ _ I) as En. pose proof (i_len _ _ _ _ _ I) as L. rewrite line_len in L.
  pose proof (i_tok _ _ _ _ _ I) as T. pose proof (i_dyn _ _ _ _ _ I) as D.
  pose proof (cnt_holds phs).
  assert (Ed : length (s_def s) = length d) by (rewrite (i_d _ _ _ _ _ I); apply map_length).
  destruct o as [| i | i | i |]; try exact O.
  - split; [| split].
    + intros -> _. cbn [b2n] in T. lia.
    + intros c q -> Eq. rewrite Ed. lia.
    + intros q -> Eq Hd. rewrite Eq in F1. cbn [length] in F1. lia.
  - split; [exact O|]. rewrite P. cbn [length]. split; intros Hi; [| lia].
    pose proof (cnt_lt isDyn _ _ _ Hi eq_refl). rewrite cnt_dyn in H0. lia.
Qed.
Lemma few_step s b d phs o s' b' d' phs' : inv n s b d phs -> few s phs -> 2 <= n -> ast s b d phs o s' b' d' phs' ->
  (match o with OClient _ => s_q s = [] | _ => True end) -> few s' phs'.
Proof.
  intros I [F1 F2] N A P. pose proof (i_tok _ _ _ _ _ I) as T. pose proof (i_n _ _ _ _ _ I) as En.
  pose proof (i_len _ _ _ _ _ I) as L. rewrite line_len in L. unfold few.
  destruct A as [? ? ? Hq | ? ? ? i p Hi Hp | ? ? ? i p Hi Hp | ? ? ? i p Hi Hp | ? ? i q ? Eq Hi Eq' | ? ? c q ? Eq Eq' | ? q ? Eq Eq' | c ? ? q ? Eq Eq'
    | ? ? ? i ? Hi Eq' | ? ? ? i ? Hi Eq' | ? ? ? i ? Hi Eq' | ? ? ? i ? Hi Eq' | ? ? ? i ? Hi Eq']; try (split; assumption).
  - rewrite Eq in F1. cbn [length] in F1. counts Hi PStart. rewrite Eq'. lia.
  - rewrite Eq in F1. cbn [length] in F1. rewrite Eq'. lia.
  - rewrite Eq in F1. cbn [length] in F1. rewrite Eq'. lia.
  - rewrite Eq in F1. cbn [length] in F1. rewrite Eq'. cbn [length]. lia.
  - rewrite Eq', P in *. cbn [app length] in *. counts Hi PReq. split; [lia|].
    cbn [reqs flat_map length ndone filter] in L, T. destruct b; cbn [b2n] in T.
    + pose proof (cnt_dyn phs). pose proof (cnt_holds phs).
      assert (C : forall l, cnt isReq l + cnt holds l <= length l).
      { clear. intros l. unfold cnt. induction l as [| x l IH]; [apply Nat.le_refl|]. destruct x; cbn [filter isReq holds length]; lia. }
      pose proof (C (upd phs i PReq)) as C1. rewrite length_upd in C1. lia.
    + assert (d = []) by (destruct d as [| x d]; [reflexivity | destruct (i_rec _ _ _ _ _ I eq_refl) as (? & ? & E); [discriminate | rewrite P in E; discriminate]]).
      subst. cbn [length] in L. lia.
  - rewrite Eq', P in *. cbn [length]. counts Hi PUse. lia.
  - rewrite Eq', P in *. cbn [app length]. counts Hi PIdle. lia.
  - rewrite Eq'. counts Hi PDue. lia.
  - rewrite Eq'. counts Hi PEnd. lia.
Qed.

(** The work left when no client asks any more. *)
Definition isU p := match p with PUse => true | _ => false end.
Definition isE p := match p with PEnd => true | _ => false end.
Definition work (s : sys) (phs : list ph) : nat :=
  10 * cnt isReq phs + 5 * cnt isStart phs + 4 * cnt isU phs + 3 * cnt isE phs + 2 * ndone (s_q s) + length (reqs (s_q s)).
Lemma work_less s b d phs : inv n s b d phs -> roomy h n ->
  (s_q s = [] /\ b = false /\ d = [] /\ cnt isReq phs = 0 /\ cnt holds phs = 0) \/
  exists o s' b' d' phs', op_ok o /\ (match o with OWait _ => False | _ => True end) /\
    (match o with OClient _ => s_q s = [] | _ => True end) /\ step h s o = Ok s' /\ inv n s' b' d' phs' /\ work s' phs' < work s phs.
Proof.
  intros I R. pose proof (i_n _ _ _ _ _ I) as En. pose proof (i_tok _ _ _ _ _ I) as T.
  pose proof (i_len _ _ _ _ _ I) as L. rewrite line_len in L.
  destruct (s_q s) as [| e q] eqn:Eq.
  - assert (C : (exists i p, nth_error phs i = Some p /\ holds p = true) \/ cnt holds phs = 0).
    { clear. induction phs as [| x l [(i & p & A & B) | IH]]; [right; reflexivity | left; exists (S i), p; auto |].
      destruct (holds x) eqn:E; [left; exists 0, x; auto | right]. unfold cnt. cbn [filter]. rewrite E. exact IH. }
    destruct C as [(i & p & Hi & Hp) | C].
    + right. assert (Hl : i < n) by (rewrite <- En; eapply nth_some_lt; eauto).
      set (o := match p with PUse => OUse i | _ => OClient i end).
      assert (O : op_ok o) by (unfold o; destruct p; exact Hl).
      destruct (step_inv s b d phs o I (inv_room _ _ _ _ _ I R O)) as (s' & b' & d' & phs' & E & I' & A).
      exists o, s', b', d', phs'. split; [exact O|]. split; [unfold o; destruct p; exact Logic.I|]. split; [unfold o; destruct p; auto|].
      split; [exact E|]. split; [exact I'|]. unfold work. rewrite Eq.
      destruct p; try discriminate; unfold o in A; clear o O E; inversion A; subst; try congruence;
        try (match goal with H2 : ?x = PIdle \/ _ |- _ => destruct H2 as [? | [? | ?]]; subst; congruence end).
      * pose proof (cnt_upd isReq _ _ _ PUse Hi). pose proof (cnt_upd isStart _ _ _ PUse Hi). pose proof (cnt_upd isU _ _ _ PUse Hi).
        pose proof (cnt_upd isE _ _ _ PUse Hi). cbn [isReq isStart isU isE b2n] in *.
        match goal with H : s_q s' = s_q s |- _ => rewrite H, Eq end. lia.
      * pose proof (cnt_upd isReq _ _ _ PEnd Hi). pose proof (cnt_upd isStart _ _ _ PEnd Hi). pose proof (cnt_upd isU _ _ _ PEnd Hi).
        pose proof (cnt_upd isE _ _ _ PEnd Hi). cbn [isReq isStart isU isE b2n] in *.
        match goal with H : s_q s' = s_q s |- _ => rewrite H, Eq end. lia.
      * pose proof (cnt_upd isReq _ _ _ PIdle Hi). pose proof (cnt_upd isStart _ _ _ PIdle Hi). pose proof (cnt_upd isU _ _ _ PIdle Hi).
        pose proof (cnt_upd isE _ _ _ PIdle Hi). cbn [isReq isStart isU isE b2n] in *.
        match goal with H : s_q s' = _ |- _ => rewrite H, Eq end. cbn. lia.
    + left. cbn [ndone filter length] in T. destruct b; cbn [b2n] in T; [lia|].
      assert (d = []) by (destruct d as [| x d]; [reflexivity | destruct (i_rec _ _ _ _ _ I eq_refl) as (? & ? & E); [discriminate | rewrite Eq in E; discriminate]]).
      subst. cbn [length reqs flat_map] in L. repeat split; auto.
  - right. destruct (step_inv s b d phs OServer I (inv_room _ _ _ _ OServer I R Logic.I)) as (s' & b' & d' & phs' & E & I' & A).
    exists OServer, s', b', d', phs'. split; [exact Logic.I|]. split; [exact Logic.I|]. split; [exact Logic.I|]. split; [exact E|]. split; [exact I'|].
    unfold work. rewrite Eq. inversion A; subst; try congruence.
    + match goal with H : s_q s = _ :: s_q s' |- _ => rewrite Eq in H; injection H as -> -> end.
      match goal with H : nth_error phs _ = Some PReq |- _ => rename H into Hi end.
      pose proof (cnt_upd isReq _ _ _ PStart Hi). pose proof (cnt_upd isStart _ _ _ PStart Hi). pose proof (cnt_upd isU _ _ _ PStart Hi).
      pose proof (cnt_upd isE _ _ _ PStart Hi). cbn [isReq isStart isU isE b2n] in *. cbn [ndone filter m_sig REQ DONE N.eqb reqs flat_map req_of app length m_cli].
      fold (reqs (s_q s')). fold (ndone (s_q s')). lia.
    + match goal with H : s_q s = _ :: s_q s' |- _ => rewrite Eq in H; injection H as -> -> end.
      cbn [ndone filter m_sig REQ DONE N.eqb reqs flat_map req_of app length m_cli]. fold (reqs (s_q s')). fold (ndone (s_q s')). lia.
    + match goal with H : s_q s = _ :: s_q s' |- _ => rewrite Eq in H; injection H as -> -> end.
      cbn [ndone filter m_sig REQ DONE N.eqb Pos.eqb reqs flat_map req_of app length m_cli]. fold (reqs (s_q s')). fold (ndone (s_q s')). lia.
    + match goal with H : s_q s = _ :: ?x, H2 : s_q s' = _ :: ?x |- _ => rewrite Eq in H; injection H as -> ->; rewrite H2 end.
      unfold ndone, reqs. cbn [filter m_sig REQ DONE N.eqb Pos.eqb flat_map req_of app length m_cli]. lia.
Qed.
End Steps.

(** More room never hurts. *)
Definition wider (h h' : shcfg) : Prop := h_sq h <= h_sq h' /\ h_cq h <= h_cq h' /\ h_def h <= h_def h' /\ h_pool h <= h_pool h'.
Section Wider.
Context (h h' : shcfg) (W : wider h h').
Lemma fifo_wider a b q e q' : a <= b -> put_fifo a q e = Ok q' -> put_fifo b q e = Ok q'.
Proof.
  unfold put_fifo. intros L H. destruct (Nat.ltb_spec (length q) a); [| discriminate].
  destruct (Nat.ltb_spec (length q) b); [exact H | lia].
Qed.
Lemma lifo_wider a b q e q' : a <= b -> put_lifo a q e = Ok q' -> put_lifo b q e = Ok q'.
Proof.
  unfold put_lifo. intros L H. destruct (Nat.ltb_spec (length q) a); [| discriminate].
  destruct (Nat.ltb_spec (length q) b); [exact H | lia].
Qed.
Lemma server_wider s e s' : post_server h s e = Ok s' -> post_server h' s e = Ok s'.
Proof.
  unfold post_server. intros H. apply bind_ok in H as (q & Hq & H). rewrite (fifo_wider _ _ _ _ _ (proj1 W) Hq). exact H.
Qed.
Lemma prio_wider s p e s' : post_prio h s p e = Ok s' -> post_prio h' s p e = Ok s'.
Proof.
  destruct p; [apply server_wider|]. cbn [post_prio]. unfold on_cli. intros H. apply bind_ok in H as (k & Hk & H). apply bind_ok in H as (k' & Hk' & H).
  apply bind_ok in Hk' as (q & Hq & Hk'). rewrite Hk. cbn [bind]. rewrite (fifo_wider _ _ _ _ _ (proj1 (proj2 W)) Hq). cbn [bind].
  injection Hk' as ->. exact H.
Qed.
Lemma alloc_wider s s' : alloc h s = Ok s' -> alloc h' s = Ok s'.
Proof.
  unfold alloc. intros H. destruct (Nat.ltb_spec (s_dyn s) (h_pool h)); [| discriminate].
  destruct (Nat.ltb_spec (s_dyn s) (h_pool h')); [exact H | destruct W as (? & ? & ? & ?); lia].
Qed.
Lemma recall_wider s s' : recall h s = Ok s' -> recall h' s = Ok s'.
Proof.
  unfold recall. destruct (s_def s); [auto|]. intros H. apply bind_ok in H as (q & Hq & H). rewrite (lifo_wider _ _ _ _ _ (proj1 W) Hq). exact H.
Qed.
Lemma srv_act_wider e s a s' : srv_act h e s a = Ok s' -> srv_act h' e s a = Ok s'.
Proof.
  destruct a as [| [| [| [| [| [| [| a]]]]]]]; cbn [srv_act]; auto; intros H.
  - apply bind_ok in H as (s1 & H1 & H). apply bind_ok in H as (s2 & H2 & H). rewrite (alloc_wider _ _ H1). cbn [bind].
    rewrite (prio_wider _ _ _ _ H2). exact H.
  - apply bind_ok in H as (s1 & H1 & H). rewrite (recall_wider _ _ H1). exact H.
  - apply bind_ok in H as (q & Hq & H). rewrite (fifo_wider _ _ _ _ _ (proj1 (proj2 (proj2 W))) Hq). exact H.
  - apply bind_ok in H as (s1 & H1 & H). rewrite (recall_wider _ _ H1). exact H.
Qed.
Lemma cli_act_wider i e s a s' : cli_act h i e s a = Ok s' -> cli_act h' i e s a = Ok s'.
Proof.
  destruct a as [| [| [| [| [| [| [| a]]]]]]]; cbn [cli_act]; auto; intros H.
  - apply bind_ok in H as (s1 & H1 & H). apply bind_ok in H as (s2 & H2 & H). rewrite (alloc_wider _ _ H1). cbn [bind].
    rewrite (server_wider _ _ _ H2). exact H.
  - apply bind_ok in H as (s1 & H1 & H). rewrite (server_wider _ _ _ H1). exact H.
Qed.
Lemma acts_wider f f' l : (forall s a s', f s a = Ok s' -> f' s a = Ok s') -> forall s s', acts f l s = Ok s' -> acts f' l s = Ok s'.
Proof.
  intros F. induction l as [| a l IH]; intros s s' H; cbn [acts] in *; [exact H|].
  apply bind_ok in H as (s1 & H1 & H). rewrite (F _ _ _ H1). apply IH. exact H.
Qed.
Lemma step_wider s o s' : o <> OPause -> step h s o = Ok s' -> step h' s o = Ok s'.
Proof.
  destruct o as [| i | i | i |]; cbn [step]; intros N H; [| | | | congruence].
  - unfold server_turn in *. destruct (s_q s); [exact H|]. apply bind_ok in H as ([st l0] & Ht & H). rewrite Ht. cbn [bind].
    apply bind_ok in H as (s1 & H1 & H). rewrite (acts_wider _ (srv_act h' m) _ (srv_act_wider m) _ _ H1). exact H.
  - unfold client_turn in *. apply bind_ok in H as (k & Hk & H). rewrite Hk. cbn [bind]. destruct (c_q k); [exact H|].
    apply bind_ok in H as ([st l0] & Ht & H). rewrite Ht. cbn [bind]. apply bind_ok in H as (s0 & H0 & H). rewrite H0. cbn [bind].
    apply bind_ok in H as (s1 & H1 & H). rewrite (acts_wider _ (cli_act h' i m) _ (cli_act_wider i m) _ _ H1). exact H.
  - unfold expire_wait in *. apply bind_ok in H as (k & Hk & H). rewrite Hk. cbn [bind]. destruct (c_wait k); [| exact H].
    apply bind_ok in H as (s0 & H0 & H). rewrite H0. cbn [bind]. apply prio_wider. exact H.
  - unfold expire_use in *. apply bind_ok in H as (k & Hk & H). rewrite Hk. cbn [bind]. destruct (c_use k); [| exact H].
    apply bind_ok in H as (s0 & H0 & H). rewrite H0. cbn [bind]. apply prio_wider. exact H.
Qed.
End Wider.

(** The start. *)
Lemma t_server : turn server_m server_init None (sig_creation sh_smc) = Ok (Some server_idle, [server_init]).
Proof. vm_compute. reflexivity. Qed.
Lemma t_client : turn client_m client_init None (sig_creation sh_smc) = Ok (Some client_idle, [client_init; client_delay_req]).
Proof. vm_compute. reflexivity. Qed.
Lemma rd_mid {A} (a b : list A) x : rd (a ++ x :: b) (length a) = Ok x.
Proof. apply rd_ok. rewrite nth_error_app2, Nat.sub_diag by lia. reflexivity. Qed.
Lemma wr_mid {A} (a b : list A) x y : wr (a ++ x :: b) (length a) y = Ok (a ++ y :: b).
Proof.
  rewrite wr_lt by (rewrite app_length; cbn [length]; lia). f_equal. induction a as [| z a IH]; [reflexivity|]. cbn [app length upd]. now rewrite IH.
Qed.
Lemma on_mid s i a b k (g : cli -> cli) : length a = i -> s_cli s = a ++ k :: b -> on_cli s i (fun k => Ok (g k)) = Ok (set_cli s (a ++ g k :: b)).
Proof. intros <- E. unfold on_cli. rewrite E, rd_mid. cbn [bind]. rewrite wr_mid. reflexivity. Qed.
Lemma clis_snoc l p : forall j, clis j (l ++ [p]) = clis j l ++ [cli_of (j + length l) p].
Proof.
  induction l as [| x l IH]; intros j; cbn [app clis length]; [rewrite Nat.add_0_r; reflexivity|].
  rewrite IH, Nat.add_succ_r. reflexivity.
Qed.
Lemma clients_start h k : forall i s, s_cli s = clis 0 (repeat PIdle i) ++ repeat (mkC None [] false false) k ->
  activate_clients h k i s = Ok (mkS (s_st s) (s_q s) (s_def s) (s_ntot s) (s_ncr s) (clis 0 (repeat PIdle (i + k))) (s_dyn s)
                                     (s_log s ++ map (fun j => BCliWait (S j)) (seq i k))).
Proof.
  induction k as [| k IH]; intros i s E; cbn [activate_clients repeat seq map] in *.
  - rewrite !app_nil_r, Nat.add_0_r in *. rewrite <- E. destruct s; reflexivity.
  - unfold activate_client.
    assert (Li : length (clis 0 (repeat PIdle i)) = i) by (rewrite length_clis, repeat_length; reflexivity).
    rewrite E. rewrite <- Li at 2. rewrite rd_mid. cbn [bind c_st]. rewrite t_client. cbn [bind acts].
    cbv beta iota delta [cli_act client_init client_delay_req].
    erewrite on_mid; [| exact Li | exact E]. cbn [bind]. erewrite on_mid; [| exact Li | reflexivity]. cbn [bind].
    erewrite on_mid; [| exact Li | reflexivity]. cbn [bind].
    rewrite IH; cbn [call set_cli s_st s_q s_def s_ntot s_ncr s_cli s_dyn s_log].
    + rewrite <- app_assoc, Nat.add_succ_r. reflexivity.
    + replace (repeat PIdle (S i)) with (repeat PIdle i ++ [PIdle]) by (rewrite <- repeat_cons; reflexivity).
      rewrite clis_snoc, <- app_assoc. reflexivity.
Qed.
Lemma waits_quiet l : asked (map (fun j => BCliWait (S j)) l) = [] /\ served (map (fun j => BCliWait (S j)) l) = [] /\
  used (map (fun j => BCliWait (S j)) l) = [] /\ finished (map (fun j => BCliWait (S j)) l) = [] /\ owner None (map (fun j => BCliWait (S j)) l) = Some None.
Proof. induction l as [| x l (A & B & C & D & E)]; cbn; auto. Qed.
Lemma cnt_idle f n : f PIdle = false -> cnt f (repeat PIdle n) = 0.
Proof. intros F. unfold cnt. induction n; [reflexivity|]. cbn [repeat filter]. rewrite F. exact IHn. Qed.
Lemma map_zero {A} (l : list A) : map (fun _ => 0%N) l = repeat 0%N (length l).
Proof. induction l; cbn; congruence. Qed.
Lemma nth_repeat_some {A} (x : A) n i : i < n -> nth_error (repeat x n) i = Some x.
Proof. revert i. induction n; intros i H; [lia|]. destruct i; [reflexivity|]. cbn. apply IHn. lia. Qed.
Lemma main_inv h n : exists s, main h n = Ok s /\ inv n s false [] (repeat PIdle n) /\ s_q s = [].
Proof.
  unfold main, activate_server. cbn [s_st]. rewrite t_server. cbn [bind acts]. cbv beta iota delta [srv_act server_init]. cbn [bind].
  rewrite (clients_start h n 0) by reflexivity. eexists. split; [reflexivity|]. split; [| reflexivity].
  destruct (waits_quiet (seq 0 n)) as (A & B & C & D & E).
  constructor; cbn [set_sst set_cnt set_def s_st s_q s_def s_ntot s_ncr s_cli s_dyn s_log app]; rewrite ?A, ?B, ?C, ?D, ?cnt_idle by reflexivity; auto.
  - apply repeat_length.
  - constructor.
  - congruence.
  - constructor.
  - constructor.
  - exists None. split; [exact E | reflexivity].
  - exists []. split; [reflexivity | left; auto].
  - exists []. split; [reflexivity | left; auto].
  - rewrite map_zero, !repeat_length. split; [reflexivity|]. intros i Hi. cbn. apply nth_repeat_some. exact Hi.
Qed.

(** Executions. *)
Definition widest (h : shcfg) (n : nat) : shcfg := mkSh (h_sq h + n + 1) (h_cq h + 1) (h_def h + n) (h_pool h + n + 1).
Lemma widest_ok h n : wider h (widest h n) /\ roomy (widest h n) n.
Proof. unfold wider, roomy, widest. cbn [h_sq h_cq h_def h_pool]. lia. Qed.
Lemma step_ok h n s b d phs o s' : inv n s b d phs -> o <> OPause -> step h s o = Ok s' -> exists b' d' phs', inv n s' b' d' phs'.
Proof.
  intros I N H. assert (O : op_ok n o).
  { pose proof (i_n _ _ _ _ _ I) as En. pose proof (i_cli _ _ _ _ _ I) as Ec.
    destruct o as [| i | i | i |]; cbn [op_ok step] in *; try exact Logic.I; try congruence;
      (destruct (Nat.ltb_spec i n); [assumption|]; destruct (turn_out h s phs i Ec) as (A & B & C); [apply nth_error_None; lia | congruence]). }
  destruct (widest_ok h n) as [W R].
  destruct (step_inv (widest h n) n s b d phs o I (inv_room _ _ _ _ _ _ _ I R O)) as (s1 & b' & d' & phs' & E & I' & _).
  rewrite (step_wider _ _ W _ _ _ N H) in E. injection E as <-. eauto.
Qed.
Lemma run_ok h n ops : forall s b d phs s', inv n s b d phs -> no_pause ops -> run h s ops = Ok s' -> exists b' d' phs', inv n s' b' d' phs'.
Proof.
  unfold no_pause. induction ops as [| o ops IH]; intros s b d phs s' I N H; cbn [run existsb] in *.
  - injection H as <-. eauto.
  - apply Bool.orb_false_iff in N as [N1 N2]. apply bind_ok in H as (s1 & H1 & H).
    destruct (step_ok h n s b d phs o s1 I) as (b1 & d1 & phs1 & I1); [intros ->; discriminate | exact H1|]. eapply IH; eassumption.
Qed.
Lemma exec_inv h n ops s : no_pause ops -> exec h n ops = Ok s -> exists b d phs, inv n s b d phs.
Proof.
  intros N H. destruct (main_inv h n) as (s0 & E & I & _). unfold exec in H. rewrite E in H. cbn [bind] in H. eapply run_ok; eassumption.
Qed.
Lemma valid_ok n o : valid n o -> is_pause o = false -> op_ok n o.
Proof. destruct o; cbn; intros; auto; discriminate. Qed.
Lemma run_total h n ops : roomy h n -> Forall (valid n) ops -> no_pause ops -> forall s b d phs, inv n s b d phs -> exists s', run h s ops = Ok s'.
Proof.
  intros R V. unfold no_pause. induction V as [| o ops Vo _ IH]; intros N s b d phs I; cbn [run existsb] in *; [eauto|].
  apply Bool.orb_false_iff in N as [N1 N2].
  destruct (step_inv h n s b d phs o I (inv_room _ _ _ _ _ _ _ I R (valid_ok _ _ Vo N1))) as (s1 & b' & d' & phs' & E & I' & _).
  rewrite E. cbn [bind]. eapply IH; eassumption.
Qed.
Lemma run_total_prio h n ops : fitting h n -> Forall (valid n) ops -> no_pause ops ->
  forall s b d phs, inv n s b d phs -> few n s phs -> by_priority h s ops -> exists s', run h s ops = Ok s'.
Proof.
  intros R V. unfold no_pause. induction V as [| o ops Vo _ IH]; intros N s b d phs I F P; cbn [run existsb by_priority] in *; [eauto|].
  apply Bool.orb_false_iff in N as [N1 N2]. destruct P as [P1 P2].
  destruct (step_inv h n s b d phs o I (inv_room_prio _ _ _ _ _ _ _ I F R (valid_ok _ _ Vo N1) P1)) as (s1 & b' & d' & phs' & E & I' & A).
  rewrite E. cbn [bind]. eapply IH; try eassumption; [| auto].
  destruct R as (_ & _ & _ & _ & R). exact (few_step n s b d phs o s1 b' d' phs' I F R A P1).
Qed.
Lemma drain h n : roomy h n -> forall w s b d phs, inv n s b d phs -> work s phs <= w ->
  exists ops s' phs', no_ask ops /\ no_pause ops /\ run h s ops = Ok s' /\ inv n s' false [] phs' /\ s_q s' = [] /\ cnt isReq phs' = 0 /\ cnt holds phs' = 0.
Proof.
  intros R w. induction w as [| w IH]; intros s b d phs I Hw.
  - destruct (work_less h n s b d phs I R) as [(A & -> & -> & B & C) | (o & s' & b' & d' & phs' & _ & _ & _ & _ & _ & L)]; [| lia].
    exists [], s, phs. repeat split; auto; apply I.
  - destruct (work_less h n s b d phs I R) as [(A & -> & -> & B & C) | (o & s' & b' & d' & phs' & O & NW & _ & E & I' & L)].
    + exists [], s, phs. repeat split; auto; apply I.
    + destruct (IH s' b' d' phs' I' ltac:(lia)) as (ops & s2 & phs2 & A1 & A2 & A3 & A4).
      exists (o :: ops), s2, phs2. unfold no_ask, no_pause in *. cbn [existsb run]. rewrite A1, A2, E. cbn [bind].
      destruct o; try contradiction; auto.
Qed.

(** Who is in which state. *)
Fixpoint ids (f : ph -> bool) (j : nat) (l : list ph) : list nat :=
  match l with [] => [] | p :: l => (if f p then [S j] else []) ++ ids f (S j) l end.
Lemma ids_len f l : forall j, length (ids f j l) = cnt f l.
Proof. unfold cnt. induction l as [| p l IH]; intros j; [reflexivity|]. cbn [ids filter]. rewrite app_length, IH. destruct (f p); reflexivity. Qed.
Lemma ids_in f l : forall j c, In c (ids f j l) <-> exists i p, c = S (j + i) /\ nth_error l i = Some p /\ f p = true.
Proof.
  induction l as [| p l IH]; intros j c; cbn [ids].
  - split; [intros [] | intros (i & q & _ & H & _); destruct i; discriminate].
  - rewrite in_app_iff, IH. split.
    + intros [H | (i & q & -> & H1 & H2)].
      * destruct (f p) eqn:E; [| destruct H]. destruct H as [<- | []]. exists 0, p. rewrite Nat.add_0_r. auto.
      * exists (S i), q. rewrite Nat.add_succ_r. auto.
    + intros (i & q & -> & H1 & H2). destruct i as [| i]; cbn [nth_error] in H1.
      * injection H1 as ->. rewrite H2, Nat.add_0_r. left. left. reflexivity.
      * right. exists i, q. rewrite Nat.add_succ_r. auto.
Qed.
Lemma ids_nodup f l : forall j, NoDup (ids f j l).
Proof.
  induction l as [| p l IH]; intros j; cbn [ids]; [constructor|].
  destruct (f p); [| apply IH]. cbn [app]. constructor; [| apply IH]. rewrite ids_in. intros (i & q & H & _). lia.
Qed.
Lemma clients_ids st f l : (forall i p, c_st (cli_of i p) = Some st <-> f p = true) -> forall j, clients_in st j (clis j l) = ids f j l.
Proof.
  intros H. induction l as [| p l IH]; intros j; [reflexivity|]. cbn [clis clients_in ids]. rewrite IH. f_equal.
  specialize (H j p). destruct (c_st (cli_of j p)) as [x|] eqn:E.
  - destruct (Nat.eqb_spec x st) as [-> | Hne]; [rewrite (proj1 H eq_refl); reflexivity|].
    destruct (f p); [| reflexivity]. pose proof (proj2 H eq_refl). congruence.
  - destruct (f p); [| reflexivity]. pose proof (proj2 H eq_refl). congruence.
Qed.
Lemma users_ids n s b d phs : inv n s b d phs -> users s = ids isUsing 0 phs.
Proof.
  intros I. unfold users. rewrite (i_cli _ _ _ _ _ I). apply clients_ids. intros i p. destruct p; cbn; split; intros; congruence || discriminate.
Qed.
Lemma waiters_ids n s b d phs : inv n s b d phs -> waiters s = ids isDyn 0 phs.
Proof.
  intros I. unfold waiters. rewrite (i_cli _ _ _ _ _ I). apply clients_ids. intros i p. destruct p; cbn; split; intros; congruence || discriminate.
Qed.
Lemma line_all n s b d phs c : inv n s b d phs -> In c (line b (s_q s) d) <-> In c (ids isReq 0 phs).
Proof.
  intros I. assert (H : incl (line b (s_q s) d) (ids isReq 0 phs)).
  { intros x Hx. pose proof (i_line _ _ _ _ _ I) as L. rewrite Forall_forall in L. destruct (L x Hx) as (i & -> & Hi).
    apply ids_in. exists i, PReq. auto. }
  split; [apply H|]. apply NoDup_length_incl; [apply I | rewrite ids_len; rewrite (i_len _ _ _ _ _ I); reflexivity | exact H].
Qed.
