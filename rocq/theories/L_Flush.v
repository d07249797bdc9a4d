(** The flush of the trace stream with puts in between. *)
From Verif Require Import Base L_Base M_TrcStream S_TrcStream L_TrcStream M_Flush S_Flush.

Section F.
Context (c : stcfg) (Hc : st_cfg_ok c) (r : reader) (Hr : reader_ok c r).

(** The stream as it was before the bytes of the block that are not yet sent were taken. *)
Definition back (s : stm) (o k : nat) : stm := mkStm (sb_buf s) (sb_in s) o (sb_qty s + k).

(** Taking: all of it depends on what is unread. *)
Lemma take_nil s : st_rel c s [] -> exists n, take c r s = (s, (None, n)).
Proof.
  intros R. pose proof (sr_qty _ _ _ R) as Q. cbn in Q. unfold take. destruct r.
  - unfold st_get_block. rewrite Q. cbn [Nat.eqb]. eauto.
  - unfold st_get. rewrite Q. cbn [Nat.eqb]. eauto.
Qed.
Lemma take_cons s l : st_rel c s l -> l <> [] -> exists k,
  take c r s = (mkStm (sb_buf s) (sb_in s) (st_wrap c (sb_out s + k)) (qsub c (sb_qty s) k), (Some (sb_out s), k)) /\
  0 < k <= length l /\ sb_out s + k <= sz c.
Proof.
  intros R Hl. destruct R as [Rb Rq Rc Ro Ri Rt]. destruct Hc as [H1 H2].
  assert (0 < length l) as Hp by (destruct l; [congruence | cbn; lia]).
  unfold take. destruct r as [n|].
  - unfold st_get_block. rewrite Rq. rewrite (proj2 (Nat.eqb_neq _ _)) by lia. cbv zeta.
    rewrite (Nat.mod_small (sz c - sb_out s)) by lia. cbn in Hr.
    set (n1 := if length l <? sz c - sb_out s then length l else sz c - sb_out s).
    assert (0 < n1 <= length l /\ sb_out s + n1 <= sz c) as Hn1 by (unfold n1; destruct (Nat.ltb_spec (length l) (sz c - sb_out s)); lia).
    exists (if n <? n1 then n else n1). split; [reflexivity|]. destruct (Nat.ltb_spec n n1); lia.
  - unfold st_get. rewrite Rq. rewrite (proj2 (Nat.eqb_neq _ _)) by lia. exists 1. split; [reflexivity|]. lia.
Qed.
Lemma put_parts s l b : st_rel c s l -> length l < sz c -> exists s', st_put c s b = Ok s' /\
  sb_buf s' = upd (sb_buf s) (sb_in s) b /\ sb_in s' = wx c (sb_in s + 1) /\ sb_out s' = sb_out s /\ sb_qty s' = length l + 1.
Proof.
  intros [Rb Rq Rc Ro Ri Rt] Hl. destruct Hc as [H1 H2]. unfold st_put.
  assert (Hin : sb_in s < sz c) by (rewrite Ri; apply wx_lt; lia).
  rewrite wr_lt by lia. cbn [bind]. rewrite Rq, Nat.mod_small by lia.
  assert (Hi : (if sb_in s + 1 =? sz c then 0 else sb_in s + 1) = wx c (sb_in s + 1)).
  { unfold wx. destruct (Nat.eqb_spec (sb_in s + 1) (sz c)), (Nat.ltb_spec (sb_in s + 1) (sz c)); lia. }
  rewrite Hi. destruct (Nat.leb_spec (sz c) (length l + 1)).
  - eexists. split; [reflexivity|]. cbn. split; [reflexivity|]. split; [reflexivity|].
    rewrite Nat.mod_small by lia. split; [|lia]. rewrite Ri. unfold wx.
    repeat match goal with |- context [?a <? ?b] => destruct (Nat.ltb_spec a b) end; lia.
  - eexists. split; [reflexivity|]. cbn. auto.
Qed.
(** The stream itself never knows of the block. *)
Lemma put_real s l b : st_rel c s l -> exists s', st_put c s b = Ok s' /\ st_rel c s' (lastn (sz c) (l ++ [b])) /\
  sb_buf s' = upd (sb_buf s) (sb_in s) b.
Proof.
  intros R. destruct (st_put_rel c Hc s l b R) as (s' & E & R'). exists s'. split; [exact E|]. split; [exact R'|].
  destruct R as [Rb Rq Rc Ro Ri Rt]. destruct Hc as [H1 H2]. unfold st_put in E.
  assert (Hin : sb_in s < sz c) by (rewrite Ri; apply wx_lt; lia).
  rewrite wr_lt in E by lia. cbn [bind] in E. destruct (sz c <=? _) in E; injection E as <-; reflexivity.
Qed.

(** * What always holds *)
(** [all]: everything put. *)
Record sound (all : list N) (f : fst_) : Prop := {
  s_unread : exists l, st_rel c (f_stm f) l /\ suffix l all;
  s_blk : forall i k j, f_pc f = FSend i k j -> j < k /\ i + k <= sz c /\
    forall x, i + j <= x < i + k -> exists b, nth_error (sb_buf (f_stm f)) x = Some b /\ In b all }.

Lemma suffix_lastn {A} n (l : list A) : suffix (lastn n l) l.
Proof. exists (firstn (length l - n) l). unfold lastn. symmetry. apply firstn_skipn. Qed.
Lemma suffix_skipn {A} n (l : list A) : suffix (skipn n l) l.
Proof. exists (firstn n l). symmetry. apply firstn_skipn. Qed.
Lemma suffix_trans {A} (x y z : list A) : suffix x y -> suffix y z -> suffix x z.
Proof. intros [t ->] [u ->]. exists (u ++ t). rewrite app_assoc. reflexivity. Qed.
Lemma suffix_snoc {A} (x y : list A) b : suffix x y -> suffix (x ++ [b]) (y ++ [b]).
Proof. intros [t ->]. exists t. rewrite app_assoc. reflexivity. Qed.
Lemma suffix_in {A} (x y : list A) b : suffix x y -> In b x -> In b y.
Proof. intros [t ->] H. apply in_or_app. auto. Qed.

Lemma sound_step all f o : sound all f -> exists f' x, f_step c r f o = Ok (f', x) /\ sound (all ++ put_of x) f' /\
  (forall b, In b (sent_of x) -> In b all).
Proof.
  intros [(l & R & Hs) B]. destruct o as [b|]; cbn [f_step].
  - destruct (put_real _ _ b R) as (s' & E & R' & Eb). rewrite E. cbn [bind]. eexists _, _. split; [reflexivity|].
    split; [|cbn; tauto]. cbn [put_of]. constructor; cbn [f_stm f_pc].
    + exists (lastn (sz c) (l ++ [b])). split; [exact R'|]. eapply suffix_trans; [apply suffix_lastn | apply suffix_snoc; exact Hs].
    + intros i k j Ep. destruct (B i k j Ep) as (H1 & H2 & H3). split; [exact H1|]. split; [exact H2|]. intros x Hx.
      destruct (H3 x Hx) as (y & E1 & E2). rewrite Eb. destruct (Nat.eq_dec x (sb_in (f_stm f))) as [-> | Hne].
      * exists b. split; [apply nth_upd_eq; eapply nth_some_lt; exact E1 | apply in_or_app; right; left; reflexivity].
      * exists y. split; [rewrite nth_upd_ne by auto; exact E1 | apply in_or_app; auto].
  - assert (exists f' x, match take c r (f_stm f) with
        | (s, (None, _)) => Ok (mkF s FRet, ONull)
        | (s, (Some i, k)) => Ok (mkF s (if k =? 0 then FTake else FSend i k 0), OTake)
        end = Ok (f', x) /\ sound (all ++ put_of x) f' /\ (forall b, In b (sent_of x) -> In b all)) as K.
    { destruct l as [|a l].
      - destruct (take_nil _ R) as (n & E). rewrite E. eexists _, _. split; [reflexivity|]. split; [|cbn; tauto].
        cbn [put_of]. rewrite app_nil_r. constructor; cbn [f_stm f_pc]; [eauto | discriminate].
      - destruct (take_cons _ _ R ltac:(discriminate)) as (k & E & Hk & Ho). rewrite E. rewrite (proj2 (Nat.eqb_neq k 0)) by lia.
        eexists _, _. split; [reflexivity|]. split; [|cbn; tauto]. cbn [put_of]. rewrite app_nil_r. constructor; cbn [f_stm f_pc sb_buf].
        + exists (skipn k (a :: l)). split; [apply st_drop_rel; auto; lia|]. eapply suffix_trans; [apply suffix_skipn | exact Hs].
        + intros i k' j Ep. injection Ep as <- <- <-. split; [lia|]. split; [exact Ho|]. intros x Hx.
          destruct (nth_error (a :: l) (x - sb_out (f_stm f))) as [b|] eqn:Eb.
          * exists b. split.
            { apply (sr_item _ _ _ R) in Eb. rewrite <- Eb. f_equal. unfold wx.
              destruct (Nat.ltb_spec (sb_out (f_stm f) + (x - sb_out (f_stm f))) (sz c)); lia. }
            { eapply suffix_in; [exact Hs|]. eapply nth_error_In. exact Eb. }
          * apply nth_error_None in Eb. lia. }
    destruct (f_pc f) as [|i k j|] eqn:Ep; [exact K | | exact K].
    destruct (B i k j eq_refl) as (H1 & H2 & H3). destruct (H3 (i + j) ltac:(lia)) as (b & E1 & E2).
    unfold rd. rewrite E1. cbn [bind]. eexists _, _. split; [reflexivity|]. split.
    + cbn [put_of]. rewrite app_nil_r. constructor; cbn [f_stm f_pc]; [eauto|].
      intros i' k' j' Eq. destruct (Nat.eqb_spec (S j) k) as [He | He]; [discriminate|]. injection Eq as <- <- <-.
      split; [lia|]. split; [exact H2|]. intros x Hx. apply H3. lia.
    + cbn. intros b' [<- | []]. exact E2.
Qed.
Lemma sound_run : forall ops all f, sound all f -> exists f' xs, runs (f_step c r) f ops = Ok (f', xs) /\ sound (all ++ bytes_put xs) f' /\
  (forall b, In b (bytes_sent xs) -> In b (all ++ bytes_put xs)).
Proof.
  induction ops as [|o ops IH]; intros all f S; cbn [runs].
  - exists f, []. cbn. rewrite app_nil_r. split; [reflexivity|]. split; [exact S | tauto].
  - destruct (sound_step all f o S) as (f1 & x & E & S1 & X1). rewrite E. cbn [bind].
    destruct (IH _ _ S1) as (f' & xs & E' & S' & X'). rewrite E'. cbn [bind]. exists f', (x :: xs). split; [reflexivity|].
    unfold bytes_put, bytes_sent in *. cbn [flat_map]. rewrite app_assoc. split; [exact S'|].
    intros b Hb. apply in_app_or in Hb as [Hb | Hb]; [|auto]. apply in_or_app. left. apply in_or_app. left. auto.
Qed.

(** * While it fits *)
(** [l]: put and not yet sent. *)
Definition exact_ (l : list N) (f : fst_) : Prop :=
  match f_pc f with
  | FSend i k j => j < k /\ i + k <= sz c /\ sb_out (f_stm f) = wx c (i + k) /\ st_rel c (back (f_stm f) (i + j) (k - j)) l
  | _ => st_rel c (f_stm f) l
  end.
Definition next (l : list N) (x : fout) : list N := match x with OPut b => l ++ [b] | OSent _ => skipn 1 l | _ => l end.

Lemma exact_step l f o : exact_ l f -> exists f' x, f_step c r f o = Ok (f', x) /\
  match x with
  | OPut b => length l + 1 <= sz c -> exact_ (l ++ [b]) f'
  | OSent b => exists l', l = b :: l' /\ exact_ l' f'
  | OTake => exact_ l f'
  | ONull => exact_ l f' /\ l = []
  end.
Proof.
  intros X. destruct o as [b|]; cbn [f_step].
  - unfold exact_ in *. destruct (f_pc f) as [|i k j|] eqn:Ep.
    + destruct (put_real _ _ b X) as (s' & E & R' & _). rewrite E. cbn [bind]. eexists _, _. split; [reflexivity|]. cbn [f_pc f_stm].
      intros Hl. rewrite lastn_all in R' by (rewrite app_length; cbn; lia). exact R'.
    + destruct X as (H1 & H2 & H3 & R). pose proof R as R0. destruct R0 as [Rb Rq Rc Ro Ri Rt]. cbn [back sb_buf sb_in sb_out sb_qty] in *.
      assert (exists s', st_put c (f_stm f) b = Ok s') as [s' E].
      { unfold st_put. rewrite wr_lt by (rewrite Rb, Ri; apply wx_lt; lia). cbn [bind]. destruct (sz c <=? _); eauto. }
      rewrite E. cbn [bind]. eexists _, _. split; [reflexivity|]. cbn [f_pc f_stm]. intros Hl.
      destruct (put_parts (back (f_stm f) (i + j) (k - j)) l b R ltac:(lia)) as (t & Et & T1 & T2 & T3 & T4).
      destruct (st_put_rel c Hc _ _ b R) as (t2 & Et2 & Rt2). rewrite Et in Et2. injection Et2 as <-.
      rewrite lastn_all in Rt2 by (rewrite app_length; cbn; lia). cbn [back sb_buf sb_in sb_out sb_qty] in *.
      assert (sb_buf s' = sb_buf t /\ sb_in s' = sb_in t /\ sb_out s' = sb_out (f_stm f) /\ sb_qty s' = sb_qty (f_stm f) + 1) as (S1 & S2 & S3 & S4).
      { destruct Hc as [C1 C2]. unfold st_put in E. rewrite wr_lt in E by (rewrite Rb, Ri; apply wx_lt; lia). cbn [bind] in E.
        assert (Hi : (if sb_in (f_stm f) + 1 =? sz c then 0 else sb_in (f_stm f) + 1) = wx c (sb_in (f_stm f) + 1)).
        { assert (sb_in (f_stm f) < sz c) by (rewrite Ri; apply wx_lt; lia). unfold wx.
          destruct (Nat.eqb_spec (sb_in (f_stm f) + 1) (sz c)), (Nat.ltb_spec (sb_in (f_stm f) + 1) (sz c)); lia. }
        rewrite Hi in E. rewrite Nat.mod_small in E by lia. destruct (Nat.leb_spec (sz c) (sb_qty (f_stm f) + 1)); [lia|].
        injection E as <-. cbn. rewrite T1, T2. auto. }
      split; [exact H1|]. split; [exact H2|]. split; [rewrite S3; exact H3|].
      replace (back s' (i + j) (k - j)) with t; [exact Rt2|]. destruct t as [tb ti to tq]. unfold back. cbn [sb_buf sb_in sb_out sb_qty] in *.
      rewrite S1, S2, S4, T3, T4. f_equal. lia.
    + destruct (put_real _ _ b X) as (s' & E & R' & _). rewrite E. cbn [bind]. eexists _, _. split; [reflexivity|]. cbn [f_pc f_stm].
      intros Hl. rewrite lastn_all in R' by (rewrite app_length; cbn; lia). exact R'.
  - assert (st_rel c (f_stm f) l -> exists f' x, match take c r (f_stm f) with
        | (s, (None, _)) => Ok (mkF s FRet, ONull)
        | (s, (Some i, k)) => Ok (mkF s (if k =? 0 then FTake else FSend i k 0), OTake)
        end = Ok (f', x) /\ match x with
        | OPut b => length l + 1 <= sz c -> exact_ (l ++ [b]) f'
        | OSent b => exists l', l = b :: l' /\ exact_ l' f'
        | OTake => exact_ l f'
        | ONull => exact_ l f' /\ l = []
        end) as K.
    { intros R. destruct l as [|a l].
      - destruct (take_nil _ R) as (n & E). rewrite E. eexists _, _. split; [reflexivity|]. split; [exact R | reflexivity].
      - destruct (take_cons _ _ R ltac:(discriminate)) as (k & E & Hk & Ho). rewrite E. rewrite (proj2 (Nat.eqb_neq k 0)) by lia.
        eexists _, _. split; [reflexivity|]. cbn [exact_ f_pc f_stm]. unfold exact_. cbn [f_pc f_stm sb_out]. split; [lia|]. split; [exact Ho|].
        split; [apply wx_wrap; exact Ho|]. unfold back. cbn [sb_buf sb_in sb_qty]. rewrite Nat.add_0_r, Nat.sub_0_r.
        destruct R as [Rb Rq Rc Ro Ri Rt]. rewrite qsub_small by (destruct Hc; lia). rewrite Nat.sub_add by lia.
        constructor; cbn; auto. }
    unfold exact_ in X. destruct (f_pc f) as [|i k j|] eqn:Ep; [exact (K X) | | exact (K X)].
    destruct X as (H1 & H2 & H3 & R). pose proof R as R0. destruct R0 as [Rb Rq Rc Ro Ri Rt]. unfold back in *. cbn [sb_buf sb_in sb_out sb_qty] in *.
    destruct l as [|b l]; [cbn in Rq; lia|].
    assert (nth_error (sb_buf (f_stm f)) (i + j) = Some b) as Eb.
    { rewrite <- (Rt 0 b eq_refl). f_equal. unfold wx. destruct (Nat.ltb_spec (i + j + 0) (sz c)); lia. }
    unfold rd. rewrite Eb. cbn [bind]. eexists _, _. split; [reflexivity|]. exists l. split; [reflexivity|].
    pose proof (st_drop_rel c Hc _ _ 1 R ltac:(cbn; lia) ltac:(cbn; lia)) as D. cbn [sb_buf sb_in sb_out sb_qty skipn] in D.
    rewrite qsub_small in D by (destruct Hc; lia).
    unfold exact_. cbn [f_pc f_stm]. destruct (Nat.eqb_spec (S j) k) as [He | He].
    + assert (st_wrap c (i + j + 1) = sb_out (f_stm f)) as W by (rewrite H3, wx_wrap by lia; f_equal; lia).
      rewrite W in D. replace (sb_qty (f_stm f) + (k - j) - 1) with (sb_qty (f_stm f)) in D by lia. destruct (f_stm f); exact D.
    + split; [lia|]. split; [exact H2|]. split; [exact H3|]. unfold back.
      assert (st_wrap c (i + j + 1) = i + S j) as W by (unfold st_wrap; destruct (Nat.leb_spec (sz c) (i + j + 1)); lia).
      rewrite W in D. replace (sb_qty (f_stm f) + (k - j) - 1) with (sb_qty (f_stm f) + (k - S j)) in D by lia. exact D.
Qed.
Lemma exact_run : forall ops l f, exact_ l f -> forall f' xs, runs (f_step c r) f ops = Ok (f', xs) -> fits (sz c) (length l) xs ->
  exists rest, l ++ bytes_put xs = bytes_sent xs ++ rest /\ exact_ rest f' /\
    (forall ys, xs = ys ++ [ONull] -> rest = []).
Proof.
  induction ops as [|o ops IH]; intros l f X f' xs E F; cbn [runs] in E.
  - injection E as <- <-. exists l. cbn. rewrite app_nil_r. split; [reflexivity|]. split; [exact X|]. intros [|? ?] H; discriminate.
  - destruct (exact_step l f o X) as (f1 & x & E1 & X1). rewrite E1 in E. cbn [bind] in E.
    destruct (runs (f_step c r) f1 ops) as [[f2 xs1]|] eqn:E2; [|discriminate]. cbn [bind] in E. injection E as E0 <-. subst f2.
    destruct x as [b| |b|]; cbn [fits] in F.
    + destruct F as [F1 F2]. specialize (X1 F1). replace (length l + 1) with (length (l ++ [b])) in F2 by (rewrite app_length; reflexivity).
      destruct (IH _ _ X1 _ _ E2 F2) as (rest & R1 & R2 & R3). exists rest. unfold bytes_put, bytes_sent in *. cbn [flat_map put_of sent_of app].
      rewrite <- R1, <- app_assoc. split; [reflexivity|]. split; [exact R2|].
      intros [|y ys] H; [discriminate|]. injection H as _ H. eauto.
    + destruct (IH _ _ X1 _ _ E2 F) as (rest & R1 & R2 & R3). exists rest. split; [exact R1|]. split; [exact R2|].
      intros [|y ys] H; [discriminate|]. injection H as _ H. eauto.
    + destruct X1 as (l' & -> & X1). cbn [length] in F. replace (S (length l') - 1) with (length l') in F by lia.
      destruct (IH _ _ X1 _ _ E2 F) as (rest & R1 & R2 & R3). exists rest. unfold bytes_put, bytes_sent in *. cbn [flat_map put_of sent_of app].
      rewrite R1. split; [reflexivity|]. split; [exact R2|].
      intros [|y ys] H; [discriminate|]. injection H as _ H. eauto.
    + destruct X1 as [X1 ->]. destruct (IH _ _ X1 _ _ E2 F) as (rest & R1 & R2 & R3). exists rest. split; [exact R1|]. split; [exact R2|].
      intros ys H. destruct ys as [|y ys].
      * injection H as H. subst xs1. unfold bytes_put, bytes_sent in R1. cbn in R1. auto.
      * injection H as _ H. eauto.
Qed.

(** With no more puts the loop comes to its end. *)
Definition left_ (l : list N) (f : fst_) : nat := match f_pc f with FSend _ _ _ => 2 * length l | _ => 2 * length l + 1 end.
Lemma flush_ends : forall m l f, exact_ l f -> left_ l f <= m -> exists n f' ys, n <= m /\
  runs (f_step c r) f (repeat FStep n) = Ok (f', ys ++ [ONull]) /\ bytes_sent ys = l /\ bytes_put ys = [].
Proof.
  induction m as [|m IH]; intros l f X Hm.
  - exfalso. unfold left_ in Hm. unfold exact_ in X. destruct (f_pc f); try lia.
    destruct X as (H1 & H2 & H3 & R). pose proof (sr_qty _ _ _ R) as Q. cbn in Q. lia.
  - destruct (exact_step l f FStep X) as (f1 & x & E1 & X1).
    destruct x as [b| |b|].
    + exfalso. cbn [f_step] in E1. destruct (f_pc f); [destruct (take c r (f_stm f)) as [? [[?|] ?]]; discriminate| |destruct (take c r (f_stm f)) as [? [[?|] ?]]; discriminate].
      destruct (rd _ _); discriminate.
    + assert (left_ l f1 <= m) as Hm1.
      { cbn [f_step] in E1. unfold left_ in Hm |- *. unfold exact_ in X.
        assert (Hk : forall s, st_rel c s l -> match take c r s with
           | (s, (None, _)) => Ok (mkF s FRet, ONull)
           | (s, (Some i, k)) => Ok (mkF s (if k =? 0 then FTake else FSend i k 0), OTake) end = Ok (f1, OTake) ->
           exists i k, f_pc f1 = FSend i k 0).
        { intros s R E. destruct l as [|a l].
          - destruct (take_nil _ R) as (n & T). rewrite T in E. discriminate.
          - destruct (take_cons _ _ R ltac:(discriminate)) as (k & T & Hk & _). rewrite T in E.
            rewrite (proj2 (Nat.eqb_neq k 0)) in E by lia. injection E as <-. cbn. eauto. }
        destruct (f_pc f); [destruct (Hk _ X E1) as (? & ? & ->); lia | destruct (rd _ _); discriminate | destruct (Hk _ X E1) as (? & ? & ->); lia]. }
      destruct (IH _ _ X1 Hm1) as (n & f' & ys & Hn & E & S1 & S2). exists (S n), f', (OTake :: ys). split; [lia|].
      cbn [repeat runs]. rewrite E1. cbn [bind]. rewrite E. cbn [bind]. auto.
    + destruct X1 as (l' & -> & X1).
      assert (left_ l' f1 <= m) as Hm1.
      { unfold left_ in Hm |- *. destruct (f_pc f), (f_pc f1); cbn [length] in Hm; lia. }
      destruct (IH _ _ X1 Hm1) as (n & f' & ys & Hn & E & S1 & S2). exists (S n), f', (OSent b :: ys). split; [lia|].
      cbn [repeat runs]. rewrite E1. cbn [bind]. rewrite E. cbn [bind]. split; [reflexivity|]. split; [|exact S2].
      unfold bytes_sent in *. cbn. rewrite S1. reflexivity.
    + destruct X1 as [_ ->]. exists 1, f1, []. split; [lia|]. cbn [repeat runs]. rewrite E1. auto.
Qed.
End F.
