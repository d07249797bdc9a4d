(** Facts about the vocabulary of [Base]. *)
From Verif Require Import Base.

Lemma bind_ok {A B} (r : res A) (k : A -> res B) b :
  bind r k = Ok b -> exists a, r = Ok a /\ k a = Ok b.
Proof. destruct r; simpl; intros H; [eauto | discriminate]. Qed.

Lemma bind_fault {A B} (r : res A) (k : A -> res B) f :
  bind r k = Fault f -> r = Fault f \/ exists a, r = Ok a /\ k a = Fault f.
Proof. destruct r; simpl; intros H; [eauto | left; congruence]. Qed.

Lemma rassert_true en n : rassert en n true = Ok tt.
Proof. reflexivity. Qed.

Lemma rassert_ok en n c : rassert en n c = Ok tt -> en = true -> c = true.
Proof. unfold rassert; destruct c, en; simpl; congruence. Qed.

Lemma length_upd {A} (l : list A) i x : length (upd l i x) = length l.
Proof. revert i; induction l as [|h t IH]; intros [|i]; simpl; auto. Qed.

Lemma nth_upd_eq {A} (l : list A) i x :
  i < length l -> nth_error (upd l i x) i = Some x.
Proof.
  revert i; induction l as [|h t IH]; intros [|i] H; simpl in *;
    try lia; auto. apply IH; lia.
Qed.

Lemma nth_upd_ne {A} (l : list A) i j x :
  i <> j -> nth_error (upd l i x) j = nth_error l j.
Proof.
  revert i j; induction l as [|h t IH]; intros [|i] [|j] H; simpl; auto;
    try congruence.
Qed.

Lemma nth_upd {A} (l : list A) i j x :
  nth_error (upd l i x) j =
  if (i =? j) && (i <? length l) then Some x else nth_error l j.
Proof.
  destruct (Nat.eqb_spec i j) as [->|Hne]; simpl.
  - destruct (Nat.ltb_spec j (length l)) as [Hl|Hl].
    + now apply nth_upd_eq.
    + assert (E : upd l j x = l).
      { revert j Hl; induction l as [|h t IH]; intros [|j] Hl; simpl in *;
          try reflexivity; try lia. f_equal; apply IH; lia. }
      now rewrite E.
  - now apply nth_upd_ne.
Qed.

Lemma upd_same {A} (l : list A) i x :
  nth_error l i = Some x -> upd l i x = l.
Proof.
  revert i; induction l as [|h t IH]; intros [|i] H; simpl in *;
    try congruence. f_equal; auto.
Qed.

Lemma rd_ok {A} (l : list A) i x : rd l i = Ok x <-> nth_error l i = Some x.
Proof. unfold rd; destruct (nth_error l i); split; congruence. Qed.

Lemma rd_lt {A} (l : list A) i :
  i < length l -> exists x, rd l i = Ok x /\ nth_error l i = Some x.
Proof.
  intros H. destruct (nth_error l i) as [x|] eqn:E.
  - exists x; split; [now apply rd_ok | reflexivity].
  - apply nth_error_None in E; lia.
Qed.

Lemma wr_ok {A} (l l' : list A) i x :
  wr l i x = Ok l' <-> i < length l /\ l' = upd l i x.
Proof.
  unfold wr; destruct (Nat.ltb_spec i (length l)); split; intros;
    [split; congruence | destruct H0; congruence | congruence | lia].
Qed.

Lemma wr_lt {A} (l : list A) i x : i < length l -> wr l i x = Ok (upd l i x).
Proof. intros; apply wr_ok; auto. Qed.

Lemma list_eq_nth {A} (l l' : list A) :
  (forall i, nth_error l i = nth_error l' i) -> l = l'.
Proof.
  revert l'; induction l as [|a l IH]; intros [|b l'] H.
  - reflexivity.
  - specialize (H 0); discriminate.
  - specialize (H 0); discriminate.
  - f_equal.
    + specialize (H 0); simpl in H; congruence.
    + apply IH; intros i; apply (H (S i)).
Qed.

Lemma nth_some_lt {A} (l : list A) i x : nth_error l i = Some x -> i < length l.
Proof. intros H; apply nth_error_Some; congruence. Qed.

Lemma u8_lt n : (u8 n < 256)%N.
Proof. unfold u8; apply N.mod_lt; discriminate. Qed.
Lemma u16_lt n : (u16 n < 65536)%N.
Proof. unfold u16; apply N.mod_lt; discriminate. Qed.
Lemma u8_small n : (n < 256)%N -> u8 n = n.
Proof. unfold u8; apply N.mod_small. Qed.
Lemma u16_small n : (n < 65536)%N -> u16 n = n.
Proof. unfold u16; apply N.mod_small. Qed.

Lemma run_app {S O R} (step : S -> O -> res (S * R)) s l1 l2 :
  run step s (l1 ++ l2) =
  do (s1, r1) <- run step s l1;
  do (s2, r2) <- run step s1 l2;
  Ok (s2, r1 ++ r2).
Proof.
  revert s; induction l1 as [|o t IH]; intros s; simpl.
  - destruct (run step s l2) as [[s2 r2]|]; reflexivity.
  - destruct (step s o) as [[s1 r]|]; simpl; [|reflexivity].
    rewrite IH. destruct (run step s1 t) as [[s2 rs]|]; simpl; [|reflexivity].
    destruct (run step s2 l2) as [[s3 r3]|]; reflexivity.
Qed.

(** Tactic: take apart one successful monadic computation. *)
Ltac inv_ok :=
  repeat match goal with
  | H : bind _ _ = Ok _ |- _ =>
      let x := fresh "v" in let H1 := fresh "Hv" in let H2 := fresh "Hk" in
      apply bind_ok in H; destruct H as [x [H1 H2]]
  | H : Ok _ = Ok _ |- _ => injection H; clear H; intros; subst
  | H : Fault _ = Ok _ |- _ => discriminate H
  | H : Ok _ = Fault _ |- _ => discriminate H
  end.

(** For examples on large concrete values: evaluate without normalising the
    state itself. *)
Definition is_ok {A} (r : res A) : bool := match r with Ok _ => true | Fault _ => false end.
Definition ok_or {A} (d : A) (r : res A) : A := match r with Ok a => a | Fault _ => d end.
Lemma ok_or_eq {A} (d : A) r : is_ok r = true -> r = Ok (ok_or d r).
Proof. destruct r; simpl; [reflexivity | discriminate]. Qed.

Lemma skipn_skipn {A} x y (l : list A) : skipn x (skipn y l) = skipn (x + y) l.
Proof.
  revert l; induction y as [|y IH]; intros l; [now rewrite Nat.add_0_r|].
  rewrite Nat.add_succ_r. destruct l; simpl; [now rewrite skipn_nil | apply IH].
Qed.
