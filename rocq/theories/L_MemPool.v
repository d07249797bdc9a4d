(** Proofs about the memory pool. *)
From Coq Require Import Permutation.
From Verif Require Import Base L_Base M_MemPool S_MemPool.
Local Open Scope N_scope.

(** ** Rounding and block layout *)
Lemma rounds_up_fun w n r k :
  1 <= w -> rounds_up w n r -> 1 <= k -> n <= k * w -> (k = 1 \/ (k - 1) * w < n) -> r = k * w.
Proof.
  intros Hw ((j & Hj & ->) & Hn & Hmin) Hk Hle Hor.
  specialize (Hmin k Hk Hle). destruct Hor as [->|Hlt]; [nia|].
  assert (k <= j) by nia. nia.
Qed.

Lemma rounds_up_ex w n : 1 <= w -> exists r, rounds_up w n r.
Proof.
  intros Hw. exists (N.max 1 ((n + w - 1) / w) * w).
  set (q := (n + w - 1) / w).
  assert (Hq : w * q <= n + w - 1 < w * q + w)
    by (unfold q; split; [apply N.mul_div_le; lia|];
        pose proof (N.mod_lt (n + w - 1) w); pose proof (N.div_mod (n + w - 1) w); lia).
  split; [exists (N.max 1 q); split; [lia|reflexivity]|]. split; [nia|].
  intros k Hk Hle. assert (q <= k) by nia. nia.
Qed.

Lemma blocks_S start r n : blocks start r (S n) = start :: blocks (start + r) r n.
Proof.
  unfold blocks. simpl. f_equal; [lia|].
  rewrite <- seq_shift, map_map. apply map_ext. intros; lia.
Qed.

Lemma blocks_snoc start r n :
  blocks start r (S n) = blocks start r n ++ [start + N.of_nat n * r].
Proof. unfold blocks. rewrite seq_S, map_app. reflexivity. Qed.

Lemma blocks_length start r n : length (blocks start r n) = n.
Proof. unfold blocks. now rewrite map_length, seq_length. Qed.

Lemma in_blocks start r n b :
  In b (blocks start r n) <-> exists i, (i < n)%nat /\ b = start + N.of_nat i * r.
Proof.
  unfold blocks. rewrite in_map_iff. split.
  - intros (i & <- & Hi). apply in_seq in Hi. exists i. lia.
  - intros (i & Hi & ->). exists i. split; auto. apply in_seq. lia.
Qed.

Lemma blocks_NoDup start r n : 1 <= r -> NoDup (blocks start r n).
Proof.
  intros Hr. unfold blocks. apply FinFun.Injective_map_NoDup; [|apply seq_NoDup].
  intros i j H. assert (N.of_nat i = N.of_nat j) by nia. lia.
Qed.

Lemma blocks_disjoint start r n b b' :
  In b (blocks start r n) -> In b' (blocks start r n) -> b <> b' -> b + r <= b' \/ b' + r <= b.
Proof.
  rewrite !in_blocks. intros (i & Hi & ->) (j & Hj & ->) Hne.
  assert (i <> j) by congruence. nia.
Qed.

Lemma NoDup_app_disj {A} (l1 l2 : list A) x : NoDup (l1 ++ l2) -> In x l1 -> ~ In x l2.
Proof.
  induction l1 as [|a l1 IH]; simpl; intros H Hx; [easy|].
  inversion H; subst. destruct Hx as [->|Hx]; auto.
  intros Hi. apply H2. apply in_app_iff; auto.
Qed.

Lemma remove_perm (b : N) l :
  NoDup l -> In b l -> Permutation (b :: remove N.eq_dec b l) l.
Proof.
  induction l as [|a l IH]; intros Hd Hi; [easy|]. inversion Hd; subst. simpl.
  destruct (N.eq_dec b a) as [->|Hne].
  - rewrite notin_remove; auto.
  - destruct Hi as [->|Hi]; [congruence|].
    etransitivity; [apply perm_swap|]. constructor. now apply IH.
Qed.

Lemma mp_layout (c : mpcfg) (cfg : mp_cfg_ok c) sstart ssize bsize r :
  mp_args_ok c sstart ssize bsize r ->
  let n := N.to_nat (ssize / r) in let B := blocks sstart r n in
  bsize <= r /\ length B = n /\
  (forall b, In b B -> sstart <= b /\ b + r <= sstart + ssize) /\
  (forall b b', In b B -> In b' B -> b <> b' -> b + r <= b' \/ b' + r <= b) /\
  NoDup B /\
  ((psz c | sstart) -> forall b, In b B -> (psz c | b)) /\
  sstart + ssize < sstart + (ssize / r + 1) * r.
Proof.
  intros (_ & _ & _ & Hr & Hrs & _) n B. destruct cfg as [Hpz _].
  assert (Hr0 : psz c <= r) by (destruct Hr as ((k & Hk & ->) & _); nia).
  assert (r * (ssize / r) <= ssize) by (apply N.mul_div_le; lia).
  split; [apply Hr|]. split; [apply blocks_length|]. split.
  { intros b. unfold B. rewrite in_blocks. intros (i & Hi & ->).
    assert (N.of_nat i + 1 <= ssize / r) by lia. nia. }
  split; [apply blocks_disjoint|]. split; [apply blocks_NoDup; lia|]. split.
  - intros Hd b. unfold B. rewrite in_blocks. intros (i & Hi & ->).
    apply N.divide_add_r; auto. destruct Hr as ((k & Hk & ->) & _).
    exists (N.of_nat i * k). lia.
  - pose proof (N.mod_lt ssize r). pose proof (N.div_mod ssize r). lia.
Qed.

Section Pool.
Context {V : Type} (mk_link : N -> V) (get_link : V -> option N) (c : mpcfg).
Hypothesis get_mk : forall a, get_link (mk_link a) = Some a.
Hypothesis cfg : mp_cfg_ok c.
Local Notation memT := (@mem V).

(** ** The rounding loop *)
Lemma mp_round_spec : forall fuel bsize k,
  bsize + psz c < bs_mod c -> 1 <= k ->
  (bsize <= k * psz c + N.of_nat fuel) ->
  (k = 1 \/ (k - 1) * psz c < bsize) ->
  exists k', 1 <= k' /\
    mp_round c fuel bsize (k * psz c) (k mod nb_mod c) = Ok (k' * psz c, k' mod nb_mod c) /\
    bsize <= k' * psz c /\ (k' = 1 \/ (k' - 1) * psz c < bsize).
Proof.
  clear get_mk.
  destruct cfg as [Hp Hn].
  induction fuel as [|fuel IH]; intros bsize k Hb Hk Hf Hlt; cbn [mp_round].
  - destruct (N.ltb_spec (k * psz c) bsize) as [H|H]; [lia|].
    exists k; auto.
  - destruct (N.ltb_spec (k * psz c) bsize) as [H|H].
    + replace ((k * psz c + psz c) mod bs_mod c) with ((k + 1) * psz c)
        by (rewrite N.mod_small; nia).
      replace ((k mod nb_mod c + 1) mod nb_mod c) with ((k + 1) mod nb_mod c)
        by (rewrite N.add_mod_idemp_l; lia).
      apply IH; try nia.
    + exists k; auto.
Qed.


(** ** Chains *)
Inductive chain (m : memT) : N -> list N -> Prop :=
| chain_nil : chain m 0 []
| chain_cons a v n l :
    a <> 0 -> m a = Some v -> get_link v = Some n -> chain m n l -> chain m a (a :: l).

Lemma chain_ext m m' a l :
  chain m a l -> (forall x, In x l -> m' x = m x) -> chain m' a l.
Proof.
  induction 1 as [|a v n l Ha Hm Hl _ IH]; intros H; [constructor|].
  econstructor; eauto.
  - rewrite H; [eauto | now left].
  - apply IH; intros; apply H; now right.
Qed.

Lemma chain_zero m l : chain m 0 l -> l = [].
Proof. inversion 1; congruence. Qed.

(** Segment of a chain: from [a] the links lead through [l] to [z]. *)
Inductive seg (m : memT) (z : N) : N -> list N -> Prop :=
| seg_nil : seg m z z []
| seg_cons a v n l :
    a <> 0 -> m a = Some v -> get_link v = Some n -> seg m z n l -> seg m z a (a :: l).

Lemma seg_ext m m' z a l :
  seg m z a l -> (forall x, In x l -> m' x = m x) -> seg m' z a l.
Proof.
  induction 1 as [|a v n l Ha Hm Hl _ IH]; intros H; [constructor|].
  econstructor; eauto.
  - rewrite H; [eauto | now left].
  - apply IH; intros; apply H; now right.
Qed.

Lemma seg_chain m z a l v :
  seg m z a l -> z <> 0 -> m z = Some v -> get_link v = Some 0 -> chain m a (l ++ [z]).
Proof.
  induction 1 as [|a w n l Ha Hm Hl _ IH]; intros Hz Hv Hg; simpl.
  - econstructor; eauto. constructor.
  - econstructor; eauto.
Qed.



(** ** The chaining loop *)
Lemma mp_chain_spec r step : r = step * psz c -> psz c <= r < 65536 ->
  forall fuel (m : memT) fb ssize cnt,
  fb <> 0 -> (N.to_nat ssize <= fuel)%nat -> ssize < 65536 ->
  mapped m fb (ssize + r) ->
  let q := N.to_nat (ssize / r) in
  exists m', mp_chain mk_link get_link c fuel m fb ssize r step (cnt mod nb_mod c) =
      Ok (m', fb + N.of_nat q * r, (cnt + N.of_nat q) mod nb_mod c) /\
    seg m' (fb + N.of_nat q * r) fb (blocks fb r q) /\
    (forall x, ~ In x (blocks fb r q) -> m' x = m x) /\
    (forall x, m' x = None <-> m x = None).
Proof.
  intros Hr Hsz. destruct cfg as [Hp Hn].
  assert (Hu : u16 r = r) by (unfold u16; apply N.mod_small; lia).
  induction fuel as [|fuel IH]; intros m fb ssize cnt Hfb Hfuel Hss Hmap q; cbn [mp_chain]; rewrite Hu.
  - destruct (N.leb_spec r ssize); [lia|].
    assert (Hq : q = 0%nat) by (unfold q; rewrite N.div_small; [reflexivity|lia]).
    rewrite Hq. exists m. simpl. rewrite !N.add_0_r. split; [reflexivity|].
    split; [constructor|]. split; [auto | tauto].
  - destruct (N.leb_spec r ssize) as [Hle|Hgt].
    + assert (Hq : q = S (N.to_nat ((ssize - r) / r))).
      { unfold q. replace ssize with ((ssize - r) + 1 * r) at 1 by lia.
        rewrite N.div_add by lia. lia. }
      destruct (m fb) as [v0|] eqn:Ev0; [|exfalso; revert Ev0; apply Hmap; lia].
      unfold mem_wr at 1. rewrite Ev0. cbn [bind].
      set (m1 := fun x => if x =? fb then Some (mk_link (fb + step * psz c)) else m x).
      unfold rd_link, mem_rd. unfold m1 at 1. rewrite N.eqb_refl. cbn [bind].
      rewrite get_mk. cbn [bind]. rewrite <- Hr.
      assert (H1 : forall x, m1 x = None <-> m x = None).
      { intros x. unfold m1. destruct (N.eqb_spec x fb) as [->|]; [|tauto].
        rewrite Ev0. split; discriminate. }
      replace ((cnt mod nb_mod c + 1) mod nb_mod c) with ((cnt + 1) mod nb_mod c)
        by (rewrite N.add_mod_idemp_l; lia).
      destruct (IH m1 (fb + r) (ssize - r) (cnt + 1)) as (m' & E & Hseg & Hfr & Hn'); try lia.
      { intros a Ha. rewrite H1. apply Hmap. lia. }
      set (q' := N.to_nat ((ssize - r) / r)) in *.
      exists m'. rewrite E. rewrite Hq. split; [f_equal; f_equal; [f_equal; lia|f_equal; lia]|].
      assert (Hnin : ~ In fb (blocks (fb + r) r q')).
      { rewrite in_blocks. intros (i & _ & Hi). lia. }
      rewrite blocks_S. split; [|split].
      * replace (fb + N.of_nat (S q') * r) with (fb + r + N.of_nat q' * r) by lia.
        econstructor; [exact Hfb| rewrite Hfr by auto; unfold m1; now rewrite N.eqb_refl |
                       rewrite get_mk; reflexivity | rewrite <- Hr; exact Hseg].
      * intros x Hx. rewrite Hfr by (intros Hi; apply Hx; now right).
        unfold m1. destruct (N.eqb_spec x fb) as [->|]; auto. exfalso; apply Hx; now left.
      * intros x. rewrite Hn'. apply H1.
    + assert (Hq : q = 0%nat) by (unfold q; rewrite N.div_small; [reflexivity|lia]).
      rewrite Hq. exists m. simpl. rewrite !N.add_0_r. split; [reflexivity|].
      split; [constructor|]. split; [auto | tauto].
Qed.

(** ** Initialisation *)
Theorem mp_init_spec (m : memT) sstart ssize bsize r :
  mp_args_ok c sstart ssize bsize r -> mapped m sstart ssize ->
  let n := N.to_nat (ssize / r) in
  exists p m', mp_init mk_link get_link c m sstart ssize bsize = Ok (p, m') /\
    p = mkMP sstart r (N.of_nat n mod nb_mod c) (N.of_nat n mod nb_mod c)
             (N.of_nat n mod nb_mod c) sstart (sstart + (N.of_nat n - 1) * r) /\
    chain m' sstart (blocks sstart r n) /\
    (forall x, ~ In x (blocks sstart r n) -> m' x = m x) /\
    (forall x, m' x = None <-> m x = None).
Proof.
  intros (Hs & Hss & Hb & Hr & Hrs & Hrn) Hmap n. destruct cfg as [Hp Hn].
  assert (Hr0 : psz c <= r) by (destruct Hr as ((k & Hk & ->) & _); nia).
  unfold mp_init.
  replace (negb (sstart =? 0) && (psz c <=? ssize) && (bsize <? (bsize + psz c) mod bs_mod c)) with true.
  2:{ rewrite N.mod_small by lia.
      destruct (N.eqb_spec sstart 0), (N.leb_spec (psz c) ssize), (N.ltb_spec bsize (bsize + psz c)); simpl; lia. }
  rewrite rassert_true. cbn [bind].
  destruct (mp_round_spec (N.to_nat bsize) bsize 1) as (k & Hk & E & Hk1 & Hk2); try lia.
  rewrite (N.mod_small (psz c)) by lia. rewrite N.mul_1_l in E. rewrite E. cbn [bind].
  assert (Hrk : r = k * psz c) by (eapply rounds_up_fun; eauto; lia).
  rewrite <- Hrk.
  assert (Hkn : k mod nb_mod c = k) by (apply N.mod_small; nia). rewrite Hkn.
  assert (Hu : u16 r = r) by (unfold u16; apply N.mod_small; lia). rewrite Hu.
  replace (r <=? ssize) with true by lia. rewrite rassert_true. cbn [bind].
  replace (u16 (ssize + 65536 - r)) with (ssize - r)
    by (unfold u16; replace (ssize + 65536 - r) with (ssize - r + 1 * 65536) by lia;
        rewrite N.mod_add by lia; rewrite N.mod_small; lia).
  destruct (mp_chain_spec r k Hrk ltac:(lia) (N.to_nat (ssize - r)) m sstart (ssize - r) 1)
    as (m1 & E1 & Hseg & Hfr & Hm1); try lia.
  { intros a Ha. apply Hmap. lia. }
  rewrite E1. cbn [bind].
  set (q := N.to_nat ((ssize - r) / r)) in *.
  assert (Hnq : n = S q).
  { unfold n, q. replace ssize with ((ssize - r) + 1 * r) at 1 by lia.
    rewrite N.div_add by lia. lia. }
  set (fb := sstart + N.of_nat q * r) in *.
  assert (Hfbm : m1 fb <> None).
  { rewrite Hm1. apply Hmap. unfold fb, q. rewrite N2Nat.id.
    pose proof (N.mul_div_le (ssize - r) r). lia. }
  unfold mem_wr. destruct (m1 fb) as [v1|] eqn:Ev1; [|congruence]. cbn [bind].
  do 2 eexists. split; [reflexivity|]. split.
  { f_equal; try (f_equal; lia). }
  assert (Hnin : ~ In fb (blocks sstart r q)).
  { rewrite in_blocks. intros (i & Hi & Hx). unfold fb in Hx.
    assert (N.of_nat i * r < N.of_nat q * r) by (apply N.mul_lt_mono_pos_r; lia). lia. }
  rewrite Hnq, blocks_snoc. fold fb. split; [|split].
  - eapply seg_chain.
    + eapply seg_ext; [exact Hseg|]. intros x Hx. destruct (N.eqb_spec x fb); [congruence|reflexivity].
    + unfold fb; lia.
    + simpl. now rewrite N.eqb_refl.
    + apply get_mk.
  - intros x Hx. rewrite in_app_iff in Hx. destruct (N.eqb_spec x fb) as [->|Hne].
    + exfalso; apply Hx; right; now left.
    + apply Hfr. tauto.
  - intros x. destruct (N.eqb_spec x fb) as [->|Hne]; [|apply Hm1].
    rewrite <- Hm1, Ev1. split; discriminate.
Qed.

Lemma mp_init_rejects (m : memT) sstart ssize bsize :
  mp_asrt c = true -> bsize < bs_mod c ->
  (sstart = 0 \/ ssize < psz c \/ bs_mod c <= bsize + psz c) ->
  mp_init mk_link get_link c m sstart ssize bsize = Fault (FAssert 92).
Proof.
  clear get_mk.
  intros Ha Hb H. destruct cfg as [Hp _]. unfold mp_init, rassert. rewrite Ha.
  replace (negb (sstart =? 0) && (psz c <=? ssize) && (bsize <? (bsize + psz c) mod bs_mod c))
    with false; [reflexivity|].
  symmetry. apply andb_false_iff.
  destruct H as [->|[H|H]]; [left; reflexivity | left; apply andb_false_iff; right; lia |].
  right. replace (bsize + psz c) with ((bsize + psz c - bs_mod c) + 1 * bs_mod c) by lia.
  rewrite N.mod_add by lia. rewrite N.mod_small by lia. lia.
Qed.

Lemma mp_init_too_big (m : memT) sstart ssize bsize r :
  mp_asrt c = true -> sstart <> 0 -> psz c <= ssize -> bsize + psz c < bs_mod c ->
  rounds_up (psz c) bsize r -> r < 65536 -> ssize < r ->
  mp_init mk_link get_link c m sstart ssize bsize = Fault (FAssert 113).
Proof.
  clear get_mk.
  intros Ha Hs Hps Hb Hr Hr6 Hlt. destruct cfg as [Hp Hn]. unfold mp_init.
  replace (negb (sstart =? 0) && (psz c <=? ssize) && (bsize <? (bsize + psz c) mod bs_mod c)) with true.
  2:{ rewrite N.mod_small by lia.
      destruct (N.eqb_spec sstart 0), (N.leb_spec (psz c) ssize), (N.ltb_spec bsize (bsize + psz c)); simpl; lia. }
  rewrite rassert_true. cbn [bind].
  destruct (mp_round_spec (N.to_nat bsize) bsize 1) as (k & Hk & E & Hk1 & Hk2); try lia.
  rewrite (N.mod_small (psz c)) by lia. rewrite N.mul_1_l in E. rewrite E. cbn [bind].
  assert (Hrk : r = k * psz c) by (eapply rounds_up_fun; eauto; lia).
  rewrite <- Hrk. unfold u16. rewrite (N.mod_small r) by lia.
  replace (r <=? ssize) with false by lia. unfold rassert. rewrite Ha. reflexivity.
Qed.

(** ** The invariant of a pool in use *)
Record mp_inv (p : mpool) (m : memT) (B owned : list N) : Prop := mkInv {
  iv_bs : mp_bsize p <> 0;
  iv_nb : mp_nblocks p = N.of_nat (length B);
  iv_nbm : N.of_nat (length B) < nb_mod c;
  iv_B : NoDup B;
  iv_nz : forall b, In b B -> b <> 0 /\ m b <> None /\ mp_start p <= b <= mp_end p;
  iv_fl : exists fl, chain m (mp_free p) fl /\ Permutation (fl ++ owned) B /\
                     mp_nfree p = N.of_nat (length fl);
  iv_min : mp_nmin p <= mp_nfree p }.

Lemma mp_inv_count p m B owned :
  mp_inv p m B owned -> mp_nfree p + N.of_nat (length owned) = mp_nblocks p.
Proof.
  intros []. destruct iv_fl0 as (fl & _ & HP & ->). rewrite iv_nb0.
  apply Permutation_length in HP. rewrite app_length in HP. lia.
Qed.

Lemma mp_inv_owned p m B owned :
  mp_inv p m B owned -> NoDup owned /\ incl owned B.
Proof.
  intros []. destruct iv_fl0 as (fl & _ & HP & _). split.
  - eapply Permutation_NoDup in iv_B0; [|symmetry; exact HP].
    clear - iv_B0. induction fl; simpl in *; auto. apply IHfl. now inversion iv_B0.
  - intros b Hb. eapply Permutation_in; [exact HP|]. apply in_app_iff; auto.
Qed.


Lemma mp_get_spec p m B owned :
  mp_inv p m B owned ->
  (length owned = length B /\ mp_get get_link c p m = Ok (p, 0)) \/
  (length owned < length B)%nat /\
  exists p' b, mp_get get_link c p m = Ok (p', b) /\ b <> 0 /\ In b B /\ ~ In b owned /\
     mp_inv p' m B (b :: owned) /\
     mp_nfree p' = mp_nfree p - 1 /\ mp_nmin p' = N.min (mp_nmin p) (mp_nfree p - 1) /\
     mp_bsize p' = mp_bsize p /\ mp_nblocks p' = mp_nblocks p /\
     mp_start p' = mp_start p /\ mp_end p' = mp_end p.
Proof.
  intros []. destruct iv_fl0 as (fl & Hc & HP & Hnf). unfold mp_get.
  replace (negb (mp_bsize p =? 0)) with true by lia. rewrite rassert_true. cbn [bind].
  pose proof (Permutation_length HP) as HL. rewrite app_length in HL.
  destruct Hc as [|a v nx fl Ha Hm Hl Hc].
  - left. simpl in HL. split; [lia|reflexivity].
  - right. simpl in HL. split; [lia|].
    destruct (N.eqb_spec a 0) as [|_]; [lia|].
    unfold rd_link, mem_rd. rewrite Hm. cbn [bind]. rewrite Hl. cbn [bind].
    cbn [length] in Hnf.
    replace (0 <? mp_nfree p) with true by lia. rewrite rassert_true. cbn [bind].
    replace ((mp_nfree p + nb_mod c - 1) mod nb_mod c) with (mp_nfree p - 1).
    2:{ replace (mp_nfree p + nb_mod c - 1) with (mp_nfree p - 1 + 1 * nb_mod c) by lia.
        rewrite N.mod_add by lia. rewrite N.mod_small; lia. }
    assert (HB : In a B) by (eapply Permutation_in; [exact HP|now left]).
    assert (Hno : ~ In a owned).
    { eapply Permutation_NoDup in iv_B0; [|symmetry; exact HP].
      eapply NoDup_app_disj; [exact iv_B0|now left]. }
    do 2 eexists. split; [reflexivity|]. simpl.
    repeat (split; [assumption|]). split.
    + constructor; simpl; auto.
      * exists fl. split; [exact Hc|]. split; [|lia].
        rewrite <- HP. symmetry. apply Permutation_middle.
      * destruct (N.ltb_spec (mp_nfree p - 1) (mp_nmin p)); lia.
    + split; [reflexivity|]. split; [|repeat split].
      destruct (N.ltb_spec (mp_nfree p - 1) (mp_nmin p)); lia.
Qed.


Lemma mp_put_spec p m B owned b :
  mp_inv p m B owned -> In b owned ->
  exists p' m', mp_put mk_link c p m b = Ok (p', m') /\
    mp_inv p' m' B (remove N.eq_dec b owned) /\
    (forall x, x <> b -> m' x = m x) /\ m' b = Some (mk_link (mp_free p)) /\
    mp_nfree p' = mp_nfree p + 1 /\ mp_nmin p' = mp_nmin p /\
    mp_bsize p' = mp_bsize p /\ mp_nblocks p' = mp_nblocks p /\
    mp_start p' = mp_start p /\ mp_end p' = mp_end p.
Proof.
  intros Hinv Hb. pose proof (mp_inv_owned _ _ _ _ Hinv) as [Hnd Hinc].
  pose proof (mp_inv_count _ _ _ _ Hinv) as Hcnt.
  destruct Hinv. destruct iv_fl0 as (fl & Hc & HP & Hnf).
  destruct (iv_nz0 b (Hinc _ Hb)) as (Hb0 & Hbm & Hbr).
  assert (Hol : (0 < length owned)%nat) by (destruct owned; [easy | simpl; lia]).
  assert (Hno : ~ In b fl).
  { intros Hi. eapply Permutation_NoDup in iv_B0; [|symmetry; exact HP].
    eapply NoDup_app_disj; eauto. }
  unfold mp_put.
  replace (negb (mp_bsize p =? 0)) with true by lia. rewrite rassert_true. cbn [bind].
  replace ((mp_start p <=? b) && (b <=? mp_end p) && (mp_nfree p <? mp_nblocks p)) with true.
  2:{ destruct (N.leb_spec (mp_start p) b), (N.leb_spec b (mp_end p)),
        (N.ltb_spec (mp_nfree p) (mp_nblocks p)); simpl; lia. }
  rewrite rassert_true. cbn [bind]. unfold mem_wr.
  destruct (m b) as [v|] eqn:Ev; [|congruence]. cbn [bind].
  rewrite (N.mod_small (mp_nfree p + 1)) by lia.
  do 2 eexists. split; [reflexivity|]. simpl. split.
  - constructor; simpl; auto.
    + intros x Hx. destruct (iv_nz0 x Hx) as (? & ? & ?). repeat split; auto; try lia.
      destruct (N.eqb_spec x b); auto. discriminate.
    + exists (b :: fl). split; [|split].
      * econstructor; [auto | now rewrite N.eqb_refl | apply get_mk |].
        eapply chain_ext; [exact Hc|]. intros x Hx.
        destruct (N.eqb_spec x b); [congruence|reflexivity].
      * rewrite <- HP. simpl. rewrite Permutation_middle. apply Permutation_app_head.
        now apply remove_perm.
      * simpl. lia.
    + lia.
  - split.
    { intros x Hx. destruct (N.eqb_spec x b); [congruence|reflexivity]. }
    rewrite N.eqb_refl. repeat split.
Qed.

(** Changing memory away from the free blocks preserves the invariant. *)
Lemma mp_inv_mem p m m' B owned :
  mp_inv p m B owned ->
  (forall x, m x <> None -> m' x <> None) ->
  (forall x, In x B -> ~ In x owned -> m' x = m x) ->
  mp_inv p m' B owned.
Proof.
  intros [] Hd Hx. constructor; auto.
  - intros b Hb. destruct (iv_nz0 b Hb) as (? & ? & ?). auto.
  - destruct iv_fl0 as (fl & Hc & HP & Hnf). exists fl. split; [|auto].
    eapply chain_ext; [exact Hc|]. intros x Hi. apply Hx.
    + eapply Permutation_in; [exact HP|]. apply in_app_iff; auto.
    + eapply Permutation_NoDup in iv_B0; [|symmetry; exact HP]. eapply NoDup_app_disj; eauto.
Qed.

(** ** Histories *)
Record ms_inv (r : N) (B : list N) (s : mpsys V) : Prop := mkMsInv {
  mi_inv : mp_inv (ms_pool s) (ms_mem s) B (ms_owned s);
  mi_bs : mp_bsize (ms_pool s) = r;
  mi_map : forall b a, In b B -> b <= a < b + r -> ms_mem s a <> None }.

Section Hist.
Context (r : N) (B : list N).
Hypothesis Bdisj : forall b b', In b B -> In b' B -> b <> b' -> b + r <= b' \/ b' + r <= b.
Local Notation step := (mp_step mk_link get_link c).

Lemma mp_step_inv s o : ms_inv r B s ->
  exists s' x, step s o = Ok (s', x) /\ ms_inv r B s' /\
    mp_nmin (ms_pool s') = N.min (mp_nmin (ms_pool s)) (mp_nfree (ms_pool s')).
Proof.
  intros [Hinv Hr Hmap]. destruct cfg as [Hp _].
  pose proof (iv_min _ _ _ _ Hinv) as Hmin.
  destruct o as [|b|a v]; cbn [mp_step].
  - destruct (mp_get_spec _ _ _ _ Hinv) as [[Hl E]|(Hl & p' & b & E & Hb0 & HB & Hno & Hi & Hf & Hm & Hbs & _)];
      rewrite E; cbn [bind].
    + do 2 eexists. split; [reflexivity|]. split; [constructor; auto|]. simpl. lia.
    + destruct (N.eqb_spec b 0); [congruence|].
      do 2 eexists. split; [reflexivity|]. split; [constructor; simpl; auto; congruence|]. simpl. lia.
  - destruct (existsb (N.eqb b) (ms_owned s)) eqn:Eb.
    + apply existsb_exists in Eb as (b' & Hb & Heq). apply N.eqb_eq in Heq; subst b'.
      destruct (mp_put_spec _ _ _ _ b Hinv Hb) as (p' & m' & E & Hi & Hfr & Hmb & Hf & Hm & Hbs & _).
      rewrite E. cbn [bind]. do 2 eexists. split; [reflexivity|].
      split; [constructor; simpl; auto; try congruence|simpl; lia].
      intros b1 a H1 H2. destruct (N.eq_dec a b) as [->|]; [congruence|].
      rewrite Hfr by auto. eauto.
    + do 2 eexists. split; [reflexivity|]. split; [constructor; auto|]. lia.
  - destruct (may_store c s a) eqn:Em.
    + apply existsb_exists in Em as (b & Hb & Hin). apply andb_true_iff in Hin as [H1 H2].
      rewrite Hr in H2. pose proof (mp_inv_owned _ _ _ _ Hinv) as [_ Hinc].
      unfold mem_wr. destruct (ms_mem s a) as [v0|] eqn:Ea;
        [|exfalso; revert Ea; apply (Hmap b); auto; lia].
      cbn [bind]. do 2 eexists. split; [reflexivity|]. split; [|simpl; lia].
      constructor; simpl; auto.
      * apply (mp_inv_mem _ _ _ _ _ Hinv).
        -- intros x Hx. destruct (x =? a); [discriminate|auto].
        -- intros x HxB Hxo. destruct (N.eqb_spec x a) as [->|]; auto.
           exfalso. assert (a <> b) by congruence.
           destruct (Bdisj a b HxB (Hinc _ Hb) ltac:(auto)); lia.
      * intros b1 x Hb1 Hx. destruct (x =? a); [discriminate|eauto].
    + do 2 eexists. split; [reflexivity|]. split; [constructor; auto|]. lia.
Qed.

Lemma mp_run_inv ops : forall s, ms_inv r B s ->
  exists s' rs, run step s ops = Ok (s', rs) /\ ms_inv r B s'.
Proof.
  induction ops as [|o ops IH]; intros s Hs; cbn [run].
  - eauto.
  - destruct (mp_step_inv s o Hs) as (s1 & x & E & H1 & _). rewrite E. cbn [bind].
    destruct (IH s1 H1) as (s2 & rs & E2 & H2). rewrite E2. cbn [bind]. eauto.
Qed.

(** The low-water mark along a run. *)
Lemma mp_run_low ops : forall s s' rs, ms_inv r B s -> run step s ops = Ok (s', rs) ->
  (forall k s1 rs1, run step s (firstn k ops) = Ok (s1, rs1) ->
     mp_nmin (ms_pool s') <= mp_nfree (ms_pool s1)) /\
  (mp_nmin (ms_pool s') = mp_nmin (ms_pool s) \/
   exists k s1 rs1, run step s (firstn k ops) = Ok (s1, rs1) /\
     mp_nmin (ms_pool s') = mp_nfree (ms_pool s1)) /\
  mp_nmin (ms_pool s') <= mp_nmin (ms_pool s).
Proof.
  induction ops as [|o ops IH]; intros s s' rs Hs Hr.
  - inversion Hr; subst. split; [|split; [auto|lia]].
    intros k s1 rs1 Hk. rewrite firstn_nil in Hk. inversion Hk; subst.
    apply (iv_min _ _ _ _ (mi_inv _ _ _ Hs)).
  - cbn [run] in Hr. destruct (mp_step_inv s o Hs) as (s1 & x & E & H1 & Hm).
    rewrite E in Hr. cbn [bind] in Hr.
    apply bind_ok in Hr as ((s2 & rs2) & Hr & Hx). inversion Hx; subst s2 rs.
    destruct (IH _ _ _ H1 Hr) as (Ha & Hb & Hc).
    pose proof (iv_min _ _ _ _ (mi_inv _ _ _ Hs)). pose proof (iv_min _ _ _ _ (mi_inv _ _ _ H1)).
    split; [|split].
    + intros [|k] s3 rs3 Hk; cbn [firstn run] in Hk.
      * inversion Hk; subst. lia.
      * rewrite E in Hk. cbn [bind] in Hk.
        apply bind_ok in Hk as ((s4 & rs4) & Hk & Hx4). inversion Hx4; subst. eapply Ha; eauto.
    + destruct Hb as [Hb|(k & s3 & rs3 & Hk & Hb)].
      * rewrite Hb, Hm. destruct (N.min_spec (mp_nmin (ms_pool s)) (mp_nfree (ms_pool s1))) as [[_ ->]|[_ ->]]; auto.
        right. exists 1%nat, s1, [x]. split; [|reflexivity]. cbn [firstn run]. rewrite E. reflexivity.
      * right. exists (S k), s3, (x :: rs3). split; [|exact Hb]. cbn [firstn run].
        rewrite E. cbn [bind]. rewrite Hk. reflexivity.
    + lia.
Qed.
End Hist.

(** A freshly initialised pool, nothing owned. *)
Lemma mp_init_inv (m : memT) sstart ssize bsize r p m' :
  mp_args_ok c sstart ssize bsize r -> mapped m sstart ssize ->
  ssize / r < nb_mod c ->
  mp_init mk_link get_link c m sstart ssize bsize = Ok (p, m') ->
  ms_inv r (blocks sstart r (N.to_nat (ssize / r))) (mkMS p m' []) /\
  mp_nblocks p = ssize / r /\ mp_nmin p = mp_nblocks p /\ mp_nfree p = mp_nblocks p.
Proof.
  intros Ha Hmap Hn Hi.
  destruct (mp_init_spec m sstart ssize bsize r Ha Hmap) as (p1 & m1 & E & Hp & Hc & Hfr & Hd).
  rewrite E in Hi. injection Hi as E1 E2. subst m1. rewrite E1 in Hp. clear E E1.
  destruct Ha as (Hs & Hss & Hb & Hr & Hrs & Hrn). destruct cfg as [Hpz Hnb].
  assert (Hr0 : psz c <= r) by (destruct Hr as ((k & Hk & ->) & _); nia).
  rewrite N2Nat.id in Hp. rewrite (N.mod_small (ssize / r)) in Hp by lia.
  set (n := ssize / r) in *.
  assert (Hn1 : 1 <= n) by (apply N.div_le_lower_bound; lia).
  assert (Hnr : n * r <= ssize) by (rewrite N.mul_comm; apply N.mul_div_le; lia).
  assert (Hin : forall b, In b (blocks sstart r (N.to_nat n)) ->
            exists i, i < n /\ b = sstart + i * r).
  { intros b. rewrite in_blocks. intros (i & Hi & ->). exists (N.of_nat i). split; [lia|auto]. }
  subst p. split; [|simpl; auto].
  constructor; simpl; auto.
  - constructor; simpl.
    + lia.
    + rewrite blocks_length. lia.
    + rewrite blocks_length. lia.
    + apply blocks_NoDup. lia.
    + intros b Hbl. destruct (Hin b Hbl) as (i & Hi & ->). repeat split; try lia; try nia.
      rewrite Hd. apply Hmap. nia.
    + exists (blocks sstart r (N.to_nat n)). rewrite app_nil_r, blocks_length.
      split; [exact Hc|]. split; [reflexivity|lia].
    + lia.
  - intros b a Hbl Hab. destruct (Hin b Hbl) as (i & Hi & ->). rewrite Hd. apply Hmap. nia.
Qed.

(** Draining a chain returns its blocks in order. *)
Lemma mp_drain fl : forall p (m : memT) owned,
  mp_bsize p <> 0 -> chain m (mp_free p) fl -> mp_nfree p = N.of_nat (length fl) ->
  N.of_nat (length fl) < nb_mod c ->
  exists s, run (mp_step mk_link get_link c) (mkMS p m owned) (repeat MpGet (length fl)) = Ok (s, fl).
Proof.
  induction fl as [|a fl IH]; intros p m owned Hb Hc Hnf Hn; cbn [length repeat run].
  - eauto.
  - inversion Hc as [|a' v nx l Ha Hm Hl Hc']; subst.
    cbn [mp_step ms_pool ms_mem]. unfold mp_get. cbn [length] in *.
    replace (negb (mp_bsize p =? 0)) with true by lia. rewrite rassert_true. cbn [bind].
    destruct (N.eqb_spec (mp_free p) 0) as [|_]; [lia|].
    unfold rd_link, mem_rd. rewrite Hm. cbn [bind]. rewrite Hl. cbn [bind].
    replace (0 <? mp_nfree p) with true by lia. rewrite rassert_true. cbn [bind].
    replace ((mp_nfree p + nb_mod c - 1) mod nb_mod c) with (mp_nfree p - 1).
    2:{ replace (mp_nfree p + nb_mod c - 1) with (mp_nfree p - 1 + 1 * nb_mod c) by lia.
        rewrite N.mod_add by lia. rewrite N.mod_small; lia. }
    destruct (N.eqb_spec (mp_free p) 0) as [|_]; [lia|].
    match goal with |- context [mkMS ?p' _ ?o] =>
      assert (E : exists s, run (mp_step mk_link get_link c) (mkMS p' m o)
                    (repeat MpGet (length fl)) = Ok (s, fl))
        by (apply IH; cbn [mp_bsize mp_free mp_nfree]; auto; lia) end.
    destruct E as (s & E). rewrite E. cbn [bind]. eauto.
Qed.

Lemma mp_init_drain (m : memT) sstart ssize bsize r :
  mp_args_ok c sstart ssize bsize r -> mapped m sstart ssize -> ssize / r < nb_mod c ->
  let n := N.to_nat (ssize / r) in
  exists p m', mp_init mk_link get_link c m sstart ssize bsize = Ok (p, m') /\
    mp_get_bsize p = r /\ mp_get_nfree p = ssize / r /\
    (forall x, x < sstart \/ sstart + ssize <= x -> m' x = m x) /\
    exists s, run (mp_step mk_link get_link c) (mkMS p m' []) (repeat MpGet n) =
              Ok (s, blocks sstart r n).
Proof.
  intros Ha Hmap Hn n.
  destruct (mp_init_spec m sstart ssize bsize r Ha Hmap) as (p & m' & E & Hp & Hc & Hfr & _).
  destruct (mp_init_inv _ _ _ _ _ _ _ Ha Hmap Hn E) as ([Hinv Hbs _] & Hnb & _ & Hnf).
  simpl in Hinv, Hbs.
  exists p, m'. split; [exact E|]. split; [exact Hbs|]. split; [unfold mp_get_nfree; congruence|].
  split.
  - intros x Hx. apply Hfr. rewrite in_blocks. intros (i & Hi & ->).
    destruct Ha as (_ & _ & _ & Hr & Hrs & _). destruct cfg as [Hpz _].
    assert (Hr0 : psz c <= r) by (destruct Hr as ((k & Hk & ->) & _); nia).
    assert (r * (ssize / r) <= ssize) by (apply N.mul_div_le; lia).
    assert (N.of_nat i + 1 <= ssize / r) by lia. nia.
  - fold n in Hc. pose proof (blocks_length sstart r n) as HL.
    assert (G : exists s, run (mp_step mk_link get_link c) (mkMS p m' [])
        (repeat MpGet (length (blocks sstart r n))) = Ok (s, blocks sstart r n));
      [apply mp_drain | now rewrite HL in G].
    + apply (iv_bs _ _ _ _ Hinv).
    + rewrite Hp. exact Hc.
    + rewrite HL. unfold n. lia.
    + rewrite HL. unfold n. lia.
Qed.


(** Everything the client may rely on, for every history from initialisation. *)
Section Top.
Context (m : memT) (sstart ssize bsize r : N) (p0 : mpool) (m0 : memT).
Hypothesis Ha : mp_args_ok c sstart ssize bsize r.
Hypothesis Hmap : mapped m sstart ssize.
Hypothesis Hn : ssize / r < nb_mod c.
Hypothesis Hi : mp_init mk_link get_link c m sstart ssize bsize = Ok (p0, m0).
Let B := blocks sstart r (N.to_nat (ssize / r)).
Local Notation step := (mp_step mk_link get_link c).

Lemma Bdisj b b' : In b B -> In b' B -> b <> b' -> b + r <= b' \/ b' + r <= b.
Proof. apply blocks_disjoint. Qed.

Lemma hist_total ops : exists s rs, run step (mkMS p0 m0 []) ops = Ok (s, rs) /\ ms_inv r B s.
Proof. apply mp_run_inv; [apply Bdisj|]. apply (mp_init_inv _ _ _ _ _ _ _ Ha Hmap Hn Hi). Qed.

Lemma hist_inv ops s rs : run step (mkMS p0 m0 []) ops = Ok (s, rs) -> ms_inv r B s.
Proof. intros H. destruct (hist_total ops) as (s' & rs' & E & Hs). rewrite E in H. congruence. Qed.

Lemma hist_get ops s rs : run step (mkMS p0 m0 []) ops = Ok (s, rs) ->
  NoDup (ms_owned s) /\ incl (ms_owned s) B /\
  exists p' b, mp_get get_link c (ms_pool s) (ms_mem s) = Ok (p', b) /\
    (b = 0 \/ In b B /\ ~ In b (ms_owned s)).
Proof.
  intros H. apply hist_inv in H as [H _ _].
  destruct (mp_inv_owned _ _ _ _ H). split; [auto|]. split; [auto|].
  destruct (mp_get_spec _ _ _ _ H) as [[_ E]|(_ & p' & b & E & _ & HB1 & HB2 & _)]; eauto 10.
Qed.

Lemma hist_total_run ops : exists s rs, run step (mkMS p0 m0 []) ops = Ok (s, rs).
Proof. destruct (hist_total ops) as (s & rs & E & _); eauto. Qed.

(** Neither get nor put touches the content of a block the client keeps. *)
Lemma hist_contents ops s rs o s' x b a : run step (mkMS p0 m0 []) ops = Ok (s, rs) ->
  step s o = Ok (s', x) -> In b (ms_owned s) -> In b (ms_owned s') -> b <= a < b + r ->
  (forall v, o <> MpStore a v) -> ms_mem s' a = ms_mem s a.
Proof.
  intros H Hst Hb Hb' Hab Ho. apply hist_inv in H as [H Hr _].
  destruct (mp_inv_owned _ _ _ _ H) as [_ Hinc].
  destruct o as [|d|a1 v]; cbn [mp_step] in Hst.
  - apply bind_ok in Hst as ((p1 & b1) & _ & E). inversion E; subst. reflexivity.
  - destruct (existsb (N.eqb d) (ms_owned s)) eqn:Ed; [|congruence].
    apply existsb_exists in Ed as (d' & Hd & Heq). apply N.eqb_eq in Heq; subst d'.
    destruct (mp_put_spec _ _ _ _ d H Hd) as (p1 & m1 & E & _ & Hfr & _).
    rewrite E in Hst. cbn [bind] in Hst. inversion Hst; subst s' x. simpl in *.
    apply in_remove in Hb' as [_ Hne]. apply Hfr. intros ->.
    destruct (Bdisj d b (Hinc _ Hd) (Hinc _ Hb) ltac:(auto)); lia.
  - destruct (may_store c s a1); [|congruence].
    unfold mem_wr in Hst. destruct (ms_mem s a1); [|discriminate].
    inversion Hst; subst. simpl. destruct (N.eqb_spec a a1); [subst; exfalso; eapply Ho; eauto|auto].
Qed.

Lemma hist_count ops s rs : run step (mkMS p0 m0 []) ops = Ok (s, rs) ->
  mp_get_nfree (ms_pool s) + N.of_nat (length (ms_owned s)) = ssize / r /\
  ((exists p', mp_get get_link c (ms_pool s) (ms_mem s) = Ok (p', 0)) <->
   N.of_nat (length (ms_owned s)) = ssize / r).
Proof.
  intros H. apply hist_inv in H as [H _ _].
  pose proof (mp_inv_count _ _ _ _ H) as Hc.
  assert (Hnb : mp_nblocks (ms_pool s) = ssize / r).
  { rewrite (iv_nb _ _ _ _ H). unfold B. rewrite blocks_length. lia. }
  split; [unfold mp_get_nfree; lia|].
  assert (HB : length B = N.to_nat (ssize / r)) by apply blocks_length.
  destruct (mp_get_spec _ _ _ _ H) as [[Hl E]|(Hl & p' & b & E & Hb & _)].
  - rewrite E. split; [intros _; lia | eauto].
  - rewrite E. split; [intros (p1 & Hx); congruence | lia].
Qed.

Lemma hist_low ops s rs : run step (mkMS p0 m0 []) ops = Ok (s, rs) ->
  (forall k s1 rs1, run step (mkMS p0 m0 []) (firstn k ops) = Ok (s1, rs1) ->
     mp_get_low_wmark (ms_pool s) <= mp_get_nfree (ms_pool s1)) /\
  (exists k s1 rs1, run step (mkMS p0 m0 []) (firstn k ops) = Ok (s1, rs1) /\
     mp_get_low_wmark (ms_pool s) = mp_get_nfree (ms_pool s1)).
Proof.
  intros H. destruct (mp_init_inv _ _ _ _ _ _ _ Ha Hmap Hn Hi) as (H0 & _ & Hm & Hf).
  destruct (mp_run_low r B Bdisj ops _ _ _ H0 H) as (H1 & H2 & _).
  split; [exact H1|]. destruct H2 as [H2|H2]; [|exact H2].
  exists 0%nat, (mkMS p0 m0 []), []. split; [reflexivity|]. unfold mp_get_low_wmark, mp_get_nfree.
  simpl in *. congruence.
Qed.

(** What put detects. *)
Lemma hist_put_detects ops s rs b : run step (mkMS p0 m0 []) ops = Ok (s, rs) ->
  mp_asrt c = true ->
  b < sstart \/ sstart + ssize <= b \/ ms_owned s = [] ->
  mp_put mk_link c (ms_pool s) (ms_mem s) b = Fault (FAssert 185).
Proof.
  intros H Has Hb.
  assert (Hse : mp_start (ms_pool s) = sstart /\ mp_end (ms_pool s) < sstart + ssize).
  { assert (G : forall ops s1 s2 rs, run step s1 ops = Ok (s2, rs) -> ms_inv r B s1 ->
       mp_start (ms_pool s2) = mp_start (ms_pool s1) /\ mp_end (ms_pool s2) = mp_end (ms_pool s1)).
    { clear H. induction ops0 as [|o ops0 IH]; intros s1 s2 rs0 Hr Hs1; cbn [run] in Hr.
      - inversion Hr; auto.
      - destruct (mp_step_inv r B Bdisj s1 o Hs1) as (s3 & x & E & H3 & _).
        rewrite E in Hr. cbn [bind] in Hr.
        apply bind_ok in Hr as ((s4 & rs4) & Hr & Hx4). inversion Hx4; subst.
        destruct (IH _ _ _ Hr H3) as [-> ->].
        destruct Hs1 as [Hv _ _]. destruct o as [|d|a1 v]; cbn [mp_step] in E.
        + destruct (mp_get_spec _ _ _ _ Hv) as [[_ Eg]|(_ & p' & b1 & Eg & _ & _ & _ & _ & _ & _ & _ & _ & Q1 & Q2)];
            rewrite Eg in E; inversion E; subst; auto.
        + destruct (existsb (N.eqb d) (ms_owned s1)) eqn:Ed; [|inversion E; subst; auto].
          apply existsb_exists in Ed as (d' & Hd & Heq). apply N.eqb_eq in Heq; subst d'.
          destruct (mp_put_spec _ _ _ _ d Hv Hd) as (p1 & m1 & Ep & _ & _ & _ & _ & _ & _ & _ & Q1 & Q2).
          rewrite Ep in E. inversion E; subst; auto.
        + destruct (may_store c s1 a1); [|inversion E; subst; auto].
          apply bind_ok in E as (m1 & _ & E). inversion E; subst; auto. }
    destruct (G _ _ _ _ H (proj1 (mp_init_inv _ _ _ _ _ _ _ Ha Hmap Hn Hi))) as [-> ->]. simpl.
    destruct (mp_init_spec m sstart ssize bsize r Ha Hmap) as (p1 & m1 & E & Hp & _).
    rewrite Hi in E. injection E as E1 E2. rewrite E1, Hp. simpl.
    destruct Ha as (Hs & Hss & Hbb & Hr & Hrs & Hrn). destruct cfg as [Hpz Hnb].
    assert (Hr0 : psz c <= r) by (destruct Hr as ((k & Hk & ->) & _); nia).
    assert (1 <= ssize / r) by (apply N.div_le_lower_bound; lia).
    assert (r * (ssize / r) <= ssize) by (apply N.mul_div_le; lia).
    split; [reflexivity|]. rewrite N2Nat.id. nia. }
  destruct Hse as [Hs1 Hs2].
  apply hist_inv in H as [H _ _]. pose proof (mp_inv_count _ _ _ _ H) as Hc.
  unfold mp_put. replace (negb (mp_bsize (ms_pool s) =? 0)) with true
    by (pose proof (iv_bs _ _ _ _ H); lia).
  rewrite rassert_true. cbn [bind].
  replace ((mp_start (ms_pool s) <=? b) && (b <=? mp_end (ms_pool s)) &&
           (mp_nfree (ms_pool s) <? mp_nblocks (ms_pool s))) with false.
  { unfold rassert. rewrite Has. reflexivity. }
  symmetry. rewrite !andb_false_iff.
  destruct Hb as [Hb|[Hb|Hb]]; [left; left; lia | left; right; lia | right].
  rewrite Hb in Hc. simpl in Hc. lia.
Qed.

(** What put does not detect: a block that is already free. *)
Lemma hist_put_undetected ops s rs b : run step (mkMS p0 m0 []) ops = Ok (s, rs) ->
  In b B -> ~ In b (ms_owned s) -> ms_owned s <> [] ->
  exists p1 m1 p2, mp_put mk_link c (ms_pool s) (ms_mem s) b = Ok (p1, m1) /\
    mp_get get_link c p1 m1 = Ok (p2, b) /\ mp_free p2 = mp_free (ms_pool s).
Proof.
  intros H Hb Hno Hne. apply hist_inv in H as [H _ _].
  pose proof (mp_inv_count _ _ _ _ H) as Hc.
  destruct (iv_nz _ _ _ _ H b Hb) as (Hb0 & Hbm & Hbr).
  assert (Hol : (0 < length (ms_owned s))%nat) by (destruct (ms_owned s); [easy | simpl; lia]).
  pose proof (iv_bs _ _ _ _ H) as Hbs. pose proof (iv_nbm _ _ _ _ H) as Hnbm.
  pose proof (iv_nb _ _ _ _ H) as Hnb.
  unfold mp_put.
  replace (negb (mp_bsize (ms_pool s) =? 0)) with true by lia. rewrite rassert_true. cbn [bind].
  replace ((mp_start (ms_pool s) <=? b) && (b <=? mp_end (ms_pool s)) &&
           (mp_nfree (ms_pool s) <? mp_nblocks (ms_pool s))) with true.
  2:{ symmetry. rewrite !andb_true_iff. repeat split; lia. }
  rewrite rassert_true. cbn [bind]. unfold mem_wr.
  destruct (ms_mem s b) as [v|] eqn:Ev; [|congruence]. cbn [bind].
  rewrite (N.mod_small (mp_nfree (ms_pool s) + 1)) by lia.
  do 3 eexists. split; [reflexivity|]. unfold mp_get. simpl.
  replace (mp_bsize (ms_pool s) =? 0) with false by lia. simpl.
  destruct (N.eqb_spec b 0); [congruence|].
  unfold rd_link, mem_rd. rewrite N.eqb_refl. cbn [bind]. rewrite get_mk. cbn [bind].
  replace (0 <? mp_nfree (ms_pool s) + 1) with true by lia. rewrite rassert_true. cbn [bind].
  split; reflexivity.
Qed.
End Top.
End Pool.
