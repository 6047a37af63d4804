(** * Facts about simple pools used by the property theorems *)
From Verif Require Import Base BaseLemmas Sqrt SqrtProofs SimplePool SimplePoolProofs SpecSimple SimplePoolInv.

Lemma lookup_beside_position_from t ts xs k :
  length ts = length xs ->
  lookup_beside t ts xs = (i ← position_from k t ts; xs !! (i - k)%nat).
Proof.
  revert xs k; induction ts as [|t' ts IH]; intros [|x xs] k Hl; try discriminate; cbn [lookup_beside position_from]; [done|].
  destruct (String.eqb_spec t' t) as [->|Hne].
  - cbn. now rewrite Nat.sub_diag.
  - rewrite (IH xs (S k)) by (cbn in Hl; lia).
    destruct (position_from (S k) t ts) as [i|] eqn:E; [|done]. cbn [mbind option_bind].
    apply position_from_spec in E as [Hle _].
    replace (i - k)%nat with (S (i - S k)) by lia. done.
Qed.
Lemma lookup_beside_position t ts xs :
  length ts = length xs -> lookup_beside t ts xs = (i ← position t ts; xs !! i).
Proof.
  intros Hl. rewrite (lookup_beside_position_from t ts xs 0) by done. unfold position.
  destruct (position_from 0 t ts); [|done]. cbn. now rewrite Nat.sub_0_r.
Qed.

Lemma wf_lengths p : sp_wf p -> length (sp_tokens p) = length (sp_amounts p).
Proof. intros (_ & Hl & (x & y & -> & _) & _). now rewrite Hl. Qed.

Lemma sp_reserve_at p t i x :
  sp_wf p -> position t (sp_tokens p) = Some i -> sp_amounts p !! i = Some x -> sp_reserve p t = x.
Proof.
  intros Hwf Hp Hi. unfold sp_reserve.
  rewrite lookup_beside_position by now apply wf_lengths. rewrite Hp. cbn. now rewrite Hi.
Qed.

(** Effect of a successful update on reserves. *)
Lemma sp_update_reserves p ti to i ain j aout f v p' x y :
  sp_wf p -> i <> j ->
  position ti (sp_tokens p) = Some i -> position to (sp_tokens p) = Some j ->
  sp_amounts p !! i = Some x -> sp_amounts p !! j = Some y ->
  sp_update_pool_and_distribute_fee p i ain j aout f v = Some p' ->
  sp_reserve p ti = x /\ sp_reserve p to = y /\
  sp_reserve p' ti = x + ain /\ sp_reserve p' to = y - aout /\ sp_tokens p' = sp_tokens p /\
  sp_fee p' = sp_fee p /\ aout <= y /\
  (forall t, t <> ti -> t <> to -> sp_reserve p' t = sp_reserve p t).
Proof.
  intros Hwf Hij Hpi Hpj Hi Hj H.
  apply sp_update_inv in H as (x' & y' & r & e & Hi' & Hj' & _ & Hle & -> & _); [|done].
  rewrite Hi in Hi'; injection Hi' as <-. rewrite Hj in Hj'; injection Hj' as <-.
  split; [eauto using sp_reserve_at|]. split; [eauto using sp_reserve_at|].
  pose proof (wf_lengths p Hwf) as Hl.
  assert (Hlen : length (sp_tokens p) =
            length (<[j:=y - aout]> (<[i:=x + ain]> (sp_amounts p)))) by now rewrite !insert_length.
  assert (Hjl : (j < length (sp_amounts p))%nat) by eauto using lookup_lt_Some.
  assert (Hil : (i < length (sp_amounts p))%nat) by eauto using lookup_lt_Some.
  unfold sp_reserve; cbn [sp_tokens sp_amounts sp_fee].
  rewrite !lookup_beside_position by done. rewrite Hpi, Hpj. cbn [mbind option_bind].
  rewrite list_lookup_insert_ne, list_lookup_insert by (done || congruence).
  rewrite list_lookup_insert by now rewrite insert_length.
  split_and!; auto.
  intros t Ht1 Ht2. rewrite !lookup_beside_position by done.
  destruct (position t (sp_tokens p)) as [k|] eqn:E; [|done]. cbn [mbind option_bind].
  assert (k <> i). { intros ->. apply position_lookup in E, Hpi. congruence. }
  assert (k <> j). { intros ->. apply position_lookup in E, Hpj. congruence. }
  rewrite !list_lookup_insert_ne by congruence. done.
Qed.

Lemma swap_reserves p ti a to mn f v p' out :
  sp_wf p -> sp_swap p ti a to mn f v = Some (p', out) ->
  ti <> to /\ mn <= out /\ 0 < a /\
  sp_reserve p' ti = sp_reserve p ti + a /\ sp_reserve p' to = sp_reserve p to - out /\
  0 < sp_reserve p ti /\ out < sp_reserve p to /\
  sp_reserve p ti * sp_reserve p to <= sp_reserve p' ti * sp_reserve p' to /\
  out = a * (FEE_DIVISOR - sp_fee p) * sp_reserve p to
          / (FEE_DIVISOR * sp_reserve p ti + a * (FEE_DIVISOR - sp_fee p)) /\
  (forall t, t <> ti -> t <> to -> sp_reserve p' t = sp_reserve p t) /\
  sp_tokens p' = sp_tokens p.
Proof.
  intros Hwf H. apply sp_swap_inv in H as (Hne & Hmn & i & j & x & y & Hpi & Hpj & Hij & Hi & Hj & Hx & Hy & Ha & Hf & -> & H).
  destruct (sp_update_reserves _ _ _ _ _ _ _ _ _ _ _ _ Hwf Hij Hpi Hpj Hi Hj H) as (-> & -> & -> & -> & Ht & _ & Hle & Hother).
  assert (Hlt : a * (FEE_DIVISOR - sp_fee p) * y / (FEE_DIVISOR * x + a * (FEE_DIVISOR - sp_fee p)) < y)
    by (apply cp_out_lt; lia).
  split_and!; auto.
  apply cp_product; [done|lia].
Qed.

Lemma swap_by_output_reserves p ti b to mx f v p' ain :
  sp_wf p -> sp_swap_by_output p ti b to mx f v = Some (p', ain) ->
  ti <> to /\ (forall m, mx = Some m -> ain <= m) /\ 0 < b /\
  sp_reserve p' ti = sp_reserve p ti + ain /\ sp_reserve p' to = sp_reserve p to - b /\
  0 < sp_reserve p ti /\ b < sp_reserve p to /\
  sp_reserve p ti * sp_reserve p to <= sp_reserve p' ti * sp_reserve p' to /\
  ain = sp_reserve p ti * b * FEE_DIVISOR / ((sp_reserve p to - b) * (FEE_DIVISOR - sp_fee p)) + 1 /\
  (forall t, t <> ti -> t <> to -> sp_reserve p' t = sp_reserve p t) /\
  sp_tokens p' = sp_tokens p.
Proof.
  intros Hwf H. apply sp_swap_by_output_inv in H as (Hne & Hmn & i & j & x & y & Hpi & Hpj & Hij & Hi & Hj & Hx & Hy & Ha & Hlt & Hf & -> & H).
  destruct (sp_update_reserves _ _ _ _ _ _ _ _ _ _ _ _ Hwf Hij Hpi Hpj Hi Hj H) as (-> & -> & -> & -> & Ht & _ & Hle & Hother).
  split_and!; auto.
  apply cp_product_by_output; lia.
Qed.

(** Both reserves are positive exactly when there are shares. *)
Lemma reserves_iff_supply p t :
  sp_wf p -> t ∈ sp_tokens p -> (0 < sp_reserve p t <-> 0 < sp_supply p).
Proof.
  intros Hwf Ht. pose proof Hwf as (Hnd & Hl & (x & y & Hxy & _ & _ & Hpos) & _).
  apply elem_of_list_lookup in Ht as [i Hi]. apply position_NoDup in Hi; [|done].
  assert (Hil : (i < 2)%nat). { rewrite <- Hl. apply position_lookup in Hi. eauto using lookup_lt_Some. }
  destruct (sp_amounts p !! i) as [z|] eqn:Ez.
  - rewrite (sp_reserve_at p t i z) by done.
    rewrite Hxy in Ez. destruct i as [|[|i]]; cbn in Ez; inv; subst; lia.
  - rewrite Hxy in Ez. apply lookup_ge_None in Ez. cbn in Ez. lia.
Qed.

(** ** C05: purse of a trader *)
Lemma swap_wf_view p ti a to mn f p' out : sp_wf p -> sp_swap p ti a to mn f false = Some (p', out) -> sp_wf p'.
Proof. apply sp_wf_swap. Qed.

(** ** C06 *)
Lemma by_output_sufficient x y b g a :
  0 < x -> b < y -> 0 < g ->
  x * b * FEE_DIVISOR / ((y - b) * g) + 1 <= a ->
  b <= a * g * y / (FEE_DIVISOR * x + a * g).
Proof.
  intros Hx Hb Hg Ha.
  assert (Hd : 0 < (y - b) * g) by nia.
  pose proof (lt_div_succ (x * b * FEE_DIVISOR) _ Hd) as Hq.
  apply div_le_iff; [unfold FEE_DIVISOR; nia|].
  set (q := x * b * FEE_DIVISOR / ((y - b) * g)) in *. clearbody q.
  assert (x * b * FEE_DIVISOR < a * ((y - b) * g)) by nia.
  unfold FEE_DIVISOR in *.
  assert (a * ((y - b) * g) + b * (a * g) = a * g * y); [|nia].
  replace y with ((y - b) + b) at 2 by lia. nia.
Qed.

Lemma by_output_tight x y b g a :
  0 < x -> 0 < b -> b < y -> 0 < g ->
  a + 2 <= x * b * FEE_DIVISOR / ((y - b) * g) + 1 ->
  a * g * y / (FEE_DIVISOR * x + a * g) < b.
Proof.
  intros Hx Hb0 Hb Hg Ha.
  assert (Hd : 0 < (y - b) * g) by nia.
  pose proof (div_mul_le (x * b * FEE_DIVISOR) _ Hd) as Hq.
  apply N.div_lt_upper_bound; [unfold FEE_DIVISOR; nia|].
  set (q := x * b * FEE_DIVISOR / ((y - b) * g)) in *. clearbody q.
  assert (a * ((y - b) * g) < x * b * FEE_DIVISOR) by nia.
  unfold FEE_DIVISOR in *.
  assert (a * ((y - b) * g) + b * (a * g) = a * g * y); [|nia].
  replace y with ((y - b) + b) at 2 by lia. nia.
Qed.

(** ** C07 *)
(** Deposit taken is at most the offer. *)
Lemma taken_le_offer x S a sh :
  0 < x -> 0 < S -> 0 < a -> sh <= (a - 1) * S / x -> x * sh / S + 1 <= a.
Proof.
  intros Hx HS Ha Hsh.
  assert (x * sh / S <= a - 1); [|dlia].
  apply div_le_iff in Hsh; [|done].
  apply N.div_le_upper_bound; nia.
Qed.

(** Share value in one token does not fall: cross-multiplied. *)
Lemma add_no_dilution x S sh : 0 < S -> x * (S + sh) <= (x + (x * sh / S + 1)) * S.
Proof.
  intros HS. pose proof (lt_div_succ (x * sh) S HS). nia.
Qed.
Lemma remove_no_dilution x S sh : 0 < S -> sh <= S -> x * (S - sh) <= (x - x * sh / S) * S.
Proof.
  intros HS Hsh. pose proof (div_mul_le (x * sh) S HS).
  set (q := x * sh / S) in *. clearbody q.
  rewrite N.mul_sub_distr_l, N.mul_sub_distr_r. lia.
Qed.
Lemma redeemable_mono x S x' S' s :
  0 < S -> 0 < S' -> x * S' <= x' * S -> x * s / S <= x' * s / S'.
Proof.
  intros HS HS' H. apply div_le_iff; [done|].
  pose proof (div_mul_le (x * s) S HS). nia.
Qed.
Lemma add_remove_le x S sh :
  0 < S -> (x + (x * sh / S + 1)) * sh / (S + sh) <= x * sh / S + 1.
Proof.
  intros HS. apply N.div_le_upper_bound; [lia|].
  pose proof (lt_div_succ (x * sh) S HS). nia.
Qed.

(** ** C08 *)
Lemma minted_bound S prev new bps :
  bps <= FEE_DIVISOR -> prev <= new -> 0 < prev * FEE_DIVISOR / bps -> 0 < bps ->
  (S + (new - prev) * S / (prev * FEE_DIVISOR / bps)) * prev <= S * new.
Proof.
  intros Hb Hle Hd Hb0.
  assert (prev <= prev * FEE_DIVISOR / bps) by (apply div_le_iff; [done|]; nia).
  pose proof (div_mul_le ((new - prev) * S) _ Hd) as Hq.
  set (d := prev * FEE_DIVISOR / bps) in *. set (q := (new - prev) * S / d) in *. clearbody q d.
  assert (q * prev <= q * d) by nia. replace new with (prev + (new - prev)) by lia. nia.
Qed.

Lemma update_share_value p i ain j aout f v p' x y :
  i <> j -> sp_amounts p !! i = Some x -> sp_amounts p !! j = Some y ->
  sp_update_pool_and_distribute_fee p i ain j aout f v = Some p' ->
  admin_fee_bps f <= FEE_DIVISOR ->
  sp_supply p' * N.sqrt (x * y) <= sp_supply p * N.sqrt ((x + ain) * (y - aout)).
Proof.
  intros Hij Hi Hj H Hb.
  apply sp_update_inv in H as (x' & y' & r & e & Hi' & Hj' & _ & Hle & -> & Hs & _ & _ & Hre & Hd); [|done].
  rewrite Hi in Hi'; injection Hi' as <-. rewrite Hj in Hj'; injection Hj' as <-.
  cbn [sp_supply]. rewrite <- N.add_assoc.
  destruct (N.eq_dec (r + e) 0) as [->|Hne]; [nia|].
  specialize (Hd Hne) as [Hd Hb0].
  destruct (_ && _); [|done]. rewrite Hre. now apply minted_bound.
Qed.

(** ** C05 *)
Lemma trader_run_inv p w os p' w' A B :
  sp_wf p -> sp_tokens p = [A; B] -> A <> B -> trader_run p w os p' w' ->
  (os = [] \/ 0 < sp_reserve p A /\ 0 < sp_reserve p B) ->
  sp_wf p' /\ sp_tokens p' = [A; B] /\
  sp_reserve p A * sp_reserve p B <= sp_reserve p' A * sp_reserve p' B /\
  (forall t, t <> A -> t <> B -> w' t = w t) /\
  (Z.of_N (sp_reserve p A) + w A = Z.of_N (sp_reserve p' A) + w' A)%Z /\
  (Z.of_N (sp_reserve p B) + w B = Z.of_N (sp_reserve p' B) + w' B)%Z.
Proof.
  intros Hwf Ht HAB Hrun. revert Hwf Ht.
  assert (Hin : forall p0 ti a to mn f p1 out, sp_tokens p0 = [A; B] ->
    sp_swap p0 ti a to mn f false = Some (p1, out) -> (ti = A /\ to = B \/ ti = B /\ to = A)).
  { intros p0 ti a to mn f p1 out Ht H.
    apply sp_swap_inv in H as (Hne & _ & i & j & _ & _ & Hi & Hj & _).
    rewrite Ht in *. apply position_lookup in Hi, Hj.
    destruct i as [|[|i]]; cbn in Hi; try discriminate Hi; destruct j as [|[|j]]; cbn in Hj; try discriminate Hj; inv; subst; auto; done. }
  assert (Hin2 : forall p0 ti a to mn f p1 out, sp_tokens p0 = [A; B] ->
    sp_swap_by_output p0 ti a to mn f false = Some (p1, out) -> (ti = A /\ to = B \/ ti = B /\ to = A)).
  { intros p0 ti a to mn f p1 out Ht H.
    apply sp_swap_by_output_inv in H as (Hne & _ & i & j & _ & _ & Hi & Hj & _).
    rewrite Ht in *. apply position_lookup in Hi, Hj.
    destruct i as [|[|i]]; cbn in Hi; try discriminate Hi; destruct j as [|[|j]]; cbn in Hj; try discriminate Hj; inv; subst; auto; done. }
  assert (HAB1 : String.eqb A B = false) by now apply String.eqb_neq.
  assert (HAB2 : String.eqb B A = false) by (apply String.eqb_neq; congruence).
  induction Hrun as [p w|p w ti a to mn f p1 out os p2 w2 H _ IH|p w ti b to mx f p1 ain os p2 w2 H _ IH];
    intros Hwf Ht Hpos.
  - split_and!; auto; lia.
  - pose proof (swap_reserves _ _ _ _ _ _ _ _ _ Hwf H) as (Hne & _ & _ & R1 & R2 & P1 & P2 & Hk & _ & _ & Htk).
    pose proof (sp_wf_swap _ _ _ _ _ _ _ _ Hwf H) as Hwf1.
    assert (Ht1 : sp_tokens p1 = [A; B]) by congruence.
    destruct (Hin _ _ _ _ _ _ _ _ Ht H) as [[-> ->]|[-> ->]];
      destruct (IH Hwf1 Ht1) as (? & ? & ? & Ho & E1 & E2); try (right; lia);
      (split_and!; auto; [lia| | |]);
      [intros t Ht'1 Ht'2; rewrite Ho by done; unfold purse_add| |
      |intros t Ht'1 Ht'2; rewrite Ho by done; unfold purse_add| |];
      try (rewrite !(proj2 (String.eqb_neq _ _)) by congruence; done);
      unfold purse_add in E1, E2; rewrite ?String.eqb_refl, ?HAB1, ?HAB2 in E1, E2; lia.
  - pose proof (swap_by_output_reserves _ _ _ _ _ _ _ _ _ Hwf H) as (Hne & _ & _ & R1 & R2 & P1 & P2 & Hk & _ & _ & Htk).
    pose proof (sp_wf_swap_by_output _ _ _ _ _ _ _ _ Hwf H) as Hwf1.
    assert (Ht1 : sp_tokens p1 = [A; B]) by congruence.
    destruct (Hin2 _ _ _ _ _ _ _ _ Ht H) as [[-> ->]|[-> ->]];
      destruct (IH Hwf1 Ht1) as (? & ? & ? & Ho & E1 & E2); try (right; lia);
      (split_and!; auto; [lia| | |]);
      [intros t Ht'1 Ht'2; rewrite Ho by done; unfold purse_add| |
      |intros t Ht'1 Ht'2; rewrite Ho by done; unfold purse_add| |];
      try (rewrite !(proj2 (String.eqb_neq _ _)) by congruence; done);
      unfold purse_add in E1, E2; rewrite ?String.eqb_refl, ?HAB1, ?HAB2 in E1, E2; lia.
Qed.

Lemma trader_run_nonempty_pos p w o os p' w' A B :
  sp_wf p -> sp_tokens p = [A; B] -> trader_run p w (o :: os) p' w' -> 0 < sp_reserve p A /\ 0 < sp_reserve p B.
Proof.
  intros Hwf Ht H.
  assert (Hs : 0 < sp_supply p).
  { inversion H as [|? ? ? ? ? ? ? ? ? ? ? ? H1|? ? ? ? ? ? ? ? ? ? ? ? H1]; subst.
    - pose proof (swap_reserves _ _ _ _ _ _ _ _ _ Hwf H1) as (_ & _ & _ & _ & _ & P1 & _).
      apply sp_swap_inv in H1 as (_ & _ & i & j & _ & _ & Hi & _).
      apply position_lookup in Hi. apply elem_of_list_lookup_2 in Hi. now apply reserves_iff_supply in P1.
    - pose proof (swap_by_output_reserves _ _ _ _ _ _ _ _ _ Hwf H1) as (_ & _ & _ & _ & _ & P1 & _).
      apply sp_swap_by_output_inv in H1 as (_ & _ & i & j & _ & _ & Hi & _).
      apply position_lookup in Hi. apply elem_of_list_lookup_2 in Hi. now apply reserves_iff_supply in P1. }
  rewrite !(reserves_iff_supply p) by (rewrite ?Ht; auto; set_solver). done.
Qed.

Lemma no_profit p w os p' w' A B :
  sp_wf p -> sp_tokens p = [A; B] -> trader_run p w os p' w' ->
  (w A <= w' A)%Z -> (w' B <= w B)%Z.
Proof.
  intros Hwf Ht Hrun Hge.
  assert (HAB : A <> B). { destruct Hwf as (Hnd & _). rewrite Ht in Hnd. intros ->. inversion Hnd. set_solver. }
  destruct os as [|o os]; [inversion Hrun; subst; lia|].
  pose proof (trader_run_nonempty_pos _ _ _ _ _ _ _ _ Hwf Ht Hrun) as Hpos.
  destruct (trader_run_inv _ _ _ _ _ A B Hwf Ht HAB Hrun (or_intror Hpos)) as (_ & _ & Hk & _ & E1 & E2).
  assert (sp_reserve p B <= sp_reserve p' B); [|lia].
  assert (sp_reserve p' A <= sp_reserve p A) by lia. nia.
Qed.

Lemma no_profit_sym p w os p' w' A B :
  sp_wf p -> sp_tokens p = [A; B] -> trader_run p w os p' w' ->
  (w B <= w' B)%Z -> (w' A <= w A)%Z.
Proof.
  intros Hwf Ht Hrun Hge.
  assert (HAB : A <> B). { destruct Hwf as (Hnd & _). rewrite Ht in Hnd. intros ->. inversion Hnd. set_solver. }
  destruct os as [|o os]; [inversion Hrun; subst; lia|].
  pose proof (trader_run_nonempty_pos _ _ _ _ _ _ _ _ Hwf Ht Hrun) as Hpos.
  destruct (trader_run_inv _ _ _ _ _ A B Hwf Ht HAB Hrun (or_intror Hpos)) as (_ & _ & Hk & _ & E1 & E2).
  assert (sp_reserve p A <= sp_reserve p' A); [|lia].
  assert (sp_reserve p' B <= sp_reserve p B) by lia. nia.
Qed.

(** ** C07 histories *)
Lemma reserve_two p A B x y :
  sp_tokens p = [A; B] -> sp_amounts p = [x; y] -> A <> B -> sp_reserve p A = x /\ sp_reserve p B = y.
Proof.
  intros Ht Ha HAB. unfold sp_reserve. rewrite Ht, Ha. cbn [lookup_beside].
  rewrite String.eqb_refl. rewrite (proj2 (String.eqb_neq A B)) by done. now rewrite String.eqb_refl.
Qed.

Lemma liquidity_step p o p' h t :
  sp_wf p -> is_liquidity_op o -> op_sender o <> Some h -> 0 < sp_share_of p h ->
  sp_exec p o = Some p' ->
  sp_share_of p' h = sp_share_of p h /\ redeemable p h t <= redeemable p' h t /\
  sp_reserve p t * sp_supply p' <= sp_reserve p' t * sp_supply p.
Proof.
  intros Hwf Hl Hs Hh H.
  pose proof (sp_exec_wf _ _ _ Hwf H) as Hwf'.
  pose proof (sp_exec_tokens _ _ _ H Hwf) as Htk.
  assert (HS : 0 < sp_supply p).
  { destruct Hwf as (_ & _ & _ & _ & _ & <-). pose proof (shares_get_le (sp_shares p) h).
    unfold sp_share_of in Hh. unfold shares_get in *. lia. }
  assert (Hshare : sp_share_of p' h = sp_share_of p h).
  { destruct o; cbn in Hl, Hs; try done; cbn [sp_exec] in H.
    - apply fmap_Some in H as ([[q tk] out] & H & ->). cbn [fst].
      apply sp_add_inv in H as (? & ? & ? & ? & _ & _ & _ & _ & _ & _ & ? & ? & _ & _ & _ & -> & _); [|done].
      change (sp_share_of ?p ?h) with (shares_get (sp_shares p) h). cbn [sp_shares].
      rewrite shares_get_credit. rewrite (proj2 (String.eqb_neq _ _)) by congruence. lia.
    - apply fmap_Some in H as ([q out] & H & ->). cbn [fst].
      apply sp_remove_inv in H as (? & ? & ? & ? & _ & _ & _ & _ & _ & _ & _ & _ & _ & _ & _ & _ & ->); [|done].
      change (sp_share_of ?p ?h) with (shares_get (sp_shares p) h). cbn [sp_shares].
      rewrite shares_get_insert_ne by congruence. done. }
  assert (HS' : 0 < sp_supply p').
  { destruct Hwf' as (_ & _ & _ & _ & _ & <-). pose proof (shares_get_le (sp_shares p') h).
    rewrite <- Hshare in Hh. unfold sp_share_of in Hh. unfold shares_get in *. lia. }
  assert (Hx : sp_reserve p t * sp_supply p' <= sp_reserve p' t * sp_supply p).
  { assert (Hcase : t ∈ sp_tokens p \/ sp_reserve p t = 0).
    { destruct (decide (t ∈ sp_tokens p)) as [|Hnt]; [auto|]. right. unfold sp_reserve.
      rewrite lookup_beside_position by now apply wf_lengths.
      destruct (position t (sp_tokens p)) eqn:E; [|done].
      apply position_lookup, elem_of_list_lookup_2 in E. done. }
    destruct Hcase as [Hin | ->]; [|lia].
    pose proof Hwf as (Hnd & Hlen & _).
    destruct (sp_tokens p) as [|A [|B [|]]] eqn:Ht; try discriminate Hlen.
    assert (HAB : A <> B). { intros ->. inversion Hnd. set_solver. }
    destruct o; cbn in Hl, Hs; try done; cbn [sp_exec] in H.
    - apply fmap_Some in H as ([[q tk] out] & H & ->). cbn [fst] in *.
      apply sp_add_inv in H as (x & y & a & b & Hxy & _ & _ & _ & _ & _ & ta & tb & _ & _ & _ & -> & Hc); [|done].
      destruct Hc as [(?&_)|(_ & Hx0 & Hy0 & _ & -> & ->)]; [lia|].
      destruct (reserve_two _ _ _ _ _ Ht Hxy HAB) as [RA RB].
      match goal with |- context [sp_reserve ?q] => match q with mkSimplePool _ _ _ _ _ =>
        destruct (reserve_two q A B _ _ Ht eq_refl HAB) as [RA' RB'] end end.
      cbn [sp_supply].
      assert (t = A \/ t = B) as [-> | ->] by set_solver; rewrite ?RA, ?RB, ?RA', ?RB'; now apply add_no_dilution.
    - apply fmap_Some in H as ([q out] & H & ->). cbn [fst] in *.
      apply sp_remove_inv in H as (x & y & ? & ? & Hxy & _ & _ & _ & _ & _ & _ & _ & Hsh & _ & _ & _ & ->); [|done].
      destruct (reserve_two _ _ _ _ _ Ht Hxy HAB) as [RA RB].
      match goal with |- context [sp_reserve ?q] => match q with mkSimplePool _ _ _ _ _ =>
        destruct (reserve_two q A B _ _ Ht eq_refl HAB) as [RA' RB'] end end.
      cbn [sp_supply].
      assert (t = A \/ t = B) as [-> | ->] by set_solver; rewrite ?RA, ?RB, ?RA', ?RB'; now apply remove_no_dilution. }
  split_and!; auto.
  unfold redeemable. rewrite Hshare. now apply redeemable_mono.
Qed.

Lemma liquidity_run p os p' h t :
  sp_wf p -> Forall (fun o => is_liquidity_op o /\ op_sender o <> Some h) os -> 0 < sp_share_of p h ->
  sp_run p os = Some p' ->
  sp_share_of p' h = sp_share_of p h /\ redeemable p h t <= redeemable p' h t.
Proof.
  intros Hwf Hos. revert p Hwf. induction Hos as [|o os [Hl Hs] _ IH]; intros p Hwf Hh H; cbn [sp_run] in H.
  - inv; subst. auto using N.le_refl.
  - inv. destruct (liquidity_step _ _ _ h t Hwf Hl Hs Hh Hx) as (E & Hle & _).
    destruct (IH x) as [E' Hle']; eauto using sp_exec_wf; [lia|]. split; lia.
Qed.

(** ** C13 *)
Lemma sp_mint_view_defined p a s :
  is_Some (sp_mint_shares p a s true) <-> s = 0 \/ sp_supply p + s < W128.
Proof.
  unfold sp_mint_shares. destruct (N.eqb_spec s 0) as [->|].
  - split; eauto.
  - unfold cadd, fit. destruct (N.ltb_spec (sp_supply p + s) W128); cbn; split; eauto.
    + intros [? [=]].
    + intros [?|?]; lia.
Qed.
Lemma sp_mint_defined p a s :
  shares_sum (sp_shares p) = sp_supply p ->
  is_Some (sp_mint_shares p a s false) <-> s = 0 \/ sp_supply p + s < W128.
Proof. intros H. rewrite sp_mint_view by done. apply sp_mint_view_defined. Qed.

Lemma ratio_defined a r : a < W128 -> r <= FEE_DIVISOR -> u128_ratio a r FEE_DIVISOR = Some (a * r / FEE_DIVISOR) /\ a * r / FEE_DIVISOR <= a.
Proof.
  intros Ha Hr.
  assert (Hle : a * r / FEE_DIVISOR <= a) by (apply N.div_le_upper_bound; unfold FEE_DIVISOR in *; nia).
  split; [|done]. unfold u128_ratio. rewrite cmul_intro. 2: {
    rewrite W256_W128. assert (FEE_DIVISOR < W128) by (vm_compute; reflexivity). nia. }
  cbn [mbind option_bind]. rewrite cdiv_intro by (vm_compute; reflexivity). cbn [mbind option_bind].
  apply fit_intro. lia.
Qed.

(** Definedness of the fee distribution does not depend on referral or view mode. *)
Lemma update_view_defined p i a j o f fq :
  sp_supply p < W128 ->
  shares_sum (sp_shares p) = sp_supply p ->
  admin_fee_bps fq = admin_fee_bps f -> referral_info fq = None ->
  (forall rid rfee, referral_info f = Some (rid, rfee) -> rfee <= FEE_DIVISOR) ->
  is_Some (sp_update_pool_and_distribute_fee p i a j o fq true) <->
  is_Some (sp_update_pool_and_distribute_fee p i a j o f false).
Proof.
  intros HsW Hsum Hb Hn Hr. unfold sp_update_pool_and_distribute_fee. rewrite Hb.
  repeat match goal with
  | |- is_Some (mbind _ ?e) <-> is_Some (mbind _ ?e) =>
      destruct e as [?|]; cbn [mbind option_bind]; [|done]
  end.
  destruct (_ && _); [|split; eauto].
  repeat match goal with
  | |- is_Some (mbind _ ?e) <-> is_Some (mbind _ ?e) =>
      let E := fresh "E" in destruct e as [?|] eqn:E; cbn [mbind option_bind]; [|done]
  end.
  match goal with H : fit W128 _ = Some ?n |- _ =>
    assert (Had : n < W128) by (apply fit_Some in H as [-> H]; exact H); clear H; rename n into ad end.
  set (p1 := sp_set_amounts p _).
  transitivity (ad = 0 \/ sp_supply p1 + ad < W128).
  { unfold sp_referral_share. rewrite Hn. cbn [mbind option_bind]. cbn. rewrite csub_intro by lia. cbn.
    rewrite sp_mint_view_defined. rewrite N.sub_0_r. done. }
  symmetry.
  unfold sp_referral_share. destruct (referral_info f) as [[rid rfee]|] eqn:Ef.
  - specialize (Hr _ _ eq_refl).
    assert (exists r, (if sp_share_has_registered p1 rid then u128_ratio ad rfee FEE_DIVISOR else Some 0) = Some r /\ r <= ad) as (r & -> & Hrle).
    { destruct (sp_share_has_registered p1 rid); [|exists 0; split; [done|lia]].
      destruct (ratio_defined ad rfee Had Hr) as [-> Hle]. eauto. }
    cbn [mbind option_bind]. destruct (N.ltb_spec 0 r) as [Hr0|Hr0].
    + destruct (sp_mint_shares p1 rid r false) as [p2|] eqn:Em.
      * cbn [mbind option_bind]. rewrite csub_intro by lia. cbn [mbind option_bind].
        apply sp_mint_inv in Em as [-> Hs2]. cbn [sp_set_amounts sp_supply p1 sp_shares] in *.
        rewrite sp_mint_defined by (cbn [sp_shares sp_supply]; rewrite shares_sum_credit; lia).
        cbn [sp_supply]. specialize (Hs2 HsW). cbn in *. lia.
      * cbn [mbind option_bind]. split; [intros [? [=]]|]. intros Hs.
        assert (is_Some (sp_mint_shares p1 rid r false)) as [? ?]; [|congruence].
        apply sp_mint_defined; [done|]. lia.
    + cbn [mbind option_bind]. assert (r = 0) as -> by lia. rewrite csub_intro by lia. cbn [mbind option_bind].
      rewrite sp_mint_defined by done. rewrite N.sub_0_r. done.
  - cbn. rewrite csub_intro by lia. cbn. rewrite sp_mint_defined by done. rewrite N.sub_0_r. done.
Qed.

Lemma quote_eq p ti a to f fq out :
  sp_wf p -> admin_fee_bps fq = admin_fee_bps f -> referral_info fq = None ->
  (forall rid rfee, referral_info f = Some (rid, rfee) -> rfee <= FEE_DIVISOR) ->
  (exists q, sp_swap p ti a to 0 fq true = Some (q, out)) <->
  (exists q, sp_swap p ti a to 0 f false = Some (q, out)).
Proof.
  intros (_ & _ & _ & _ & HsW & Hsum) Hb Hn Hr. unfold sp_swap.
  repeat match goal with
  | |- (exists _, mbind _ ?e = _) <-> (exists _, mbind _ ?e = _) =>
      destruct e as [?|]; cbn [mbind option_bind]; [|split; intros [? [=]]]
  end.
  match goal with |- context [sp_update_pool_and_distribute_fee p ?i a ?j ?o f false] =>
    pose proof (update_view_defined p i a j o f fq HsW Hsum Hb Hn Hr) as H end.
  destruct (sp_update_pool_and_distribute_fee _ _ _ _ _ fq true) as [q1|];
  destruct (sp_update_pool_and_distribute_fee _ _ _ _ _ f false) as [q2|]; cbn [mbind option_bind].
  - split; intros [q [= _ <-]]; eauto.
  - destruct (proj1 H (ex_intro _ _ eq_refl)) as [? [=]].
  - destruct (proj2 H (ex_intro _ _ eq_refl)) as [? [=]].
  - split; intros [q [=]].
Qed.

Lemma quote_by_output_eq p ti b to f fq ain :
  sp_wf p -> admin_fee_bps fq = admin_fee_bps f -> referral_info fq = None ->
  (forall rid rfee, referral_info f = Some (rid, rfee) -> rfee <= FEE_DIVISOR) ->
  (exists q, sp_swap_by_output p ti b to None fq true = Some (q, ain)) <->
  (exists q, sp_swap_by_output p ti b to None f false = Some (q, ain)).
Proof.
  intros (_ & _ & _ & _ & HsW & Hsum) Hb Hn Hr. unfold sp_swap_by_output.
  repeat match goal with
  | |- (exists _, mbind _ ?e = _) <-> (exists _, mbind _ ?e = _) =>
      destruct e as [?|]; cbn [mbind option_bind]; [|split; intros [? [=]]]
  end.
  match goal with |- context [sp_update_pool_and_distribute_fee p ?i ?a ?j ?o f false] =>
    pose proof (update_view_defined p i a j o f fq HsW Hsum Hb Hn Hr) as H end.
  destruct (sp_update_pool_and_distribute_fee _ _ _ _ _ fq true) as [q1|];
  destruct (sp_update_pool_and_distribute_fee _ _ _ _ _ f false) as [q2|]; cbn [mbind option_bind].
  - split; intros [q [= _ <-]]; eauto.
  - destruct (proj1 H (ex_intro _ _ eq_refl)) as [? [=]].
  - destruct (proj2 H (ex_intro _ _ eq_refl)) as [? [=]].
  - split; intros [q [=]].
Qed.

(** ** Liveness of trades: the only reasons a trade can be refused *)
Lemma sqrt_lt_W128 k : k < W256 -> N.sqrt k < W128.
Proof.
  intros Hk. rewrite W256_W128 in Hk. apply N.sqrt_lt_square in Hk.
  pose proof (N.sqrt_square W128). lia.
Qed.

Lemma sqrt_pos_mul x y : 0 < x -> 0 < y -> 0 < N.sqrt (x * y).
Proof. intros Hx Hy. apply N.lt_le_trans with (N.sqrt 1); [reflexivity|]. apply N.sqrt_le_mono. nia. Qed.

Lemma update_defined p i ain j aout f x y :
  i <> j -> sp_wf p ->
  sp_amounts p !! i = Some x -> sp_amounts p !! j = Some y ->
  0 < x -> 0 < y -> aout < y -> x + ain < W128 -> y < W128 ->
  x * y <= (x + ain) * (y - aout) ->
  admin_fee_bps f <= FEE_DIVISOR ->
  (forall rid rfee, referral_info f = Some (rid, rfee) -> rfee <= FEE_DIVISOR) ->
  sp_supply p * N.sqrt ((x + ain) * (y - aout)) < W128 * N.sqrt (x * y) ->
  is_Some (sp_update_pool_and_distribute_fee p i ain j aout f false).
Proof.
  intros Hij Hwf Hi Hj Hx Hy Ho Hin HyW Hk Hb Hr Hsup.
  pose proof Hwf as (_ & _ & _ & _ & HsW & Hsum).
  rewrite <- (update_view_defined p i ain j aout f (mkAdminFees (admin_fee_bps f) (exchange_id f) None)) by done.
  unfold sp_update_pool_and_distribute_fee, vget. rewrite Hi, Hj. cbn [mbind option_bind].
  assert (HxW : x < W128) by lia.
  pose proof (u128_mul_lt x y HxW HyW).
  assert (HoW : y - aout < W128) by lia.
  pose proof (u128_mul_lt _ _ Hin HoW) as Hk1.
  assert (Hk1' : (x + ain) * (y - aout) < W256) by (clear -Hk1; set (z := (x + ain) * (y - aout)) in *; clearbody z; lia).
  rewrite cmul_intro by lia. cbn [mbind option_bind].
  rewrite integer_sqrt_total by lia. cbn [mbind option_bind].
  rewrite cadd_intro by lia. cbn [mbind option_bind].
  rewrite vset_intro by eauto using lookup_lt_Some. cbn [mbind option_bind].
  rewrite list_lookup_insert_ne, Hj by done. cbn [mbind option_bind].
  rewrite csub_intro by lia. cbn [mbind option_bind].
  rewrite vset_intro by (rewrite insert_length; eauto using lookup_lt_Some). cbn [mbind option_bind].
  assert (Hjl : (j < length (sp_amounts p))%nat) by eauto using lookup_lt_Some.
  assert (Hil : (i < length (sp_amounts p))%nat) by eauto using lookup_lt_Some.
  rewrite (list_lookup_insert_ne _ j i) by congruence. rewrite (list_lookup_insert (sp_amounts p) i) by done. cbn [mbind option_bind].
  rewrite list_lookup_insert by (now rewrite insert_length). cbn [mbind option_bind].
  rewrite (cmul_intro W256 (x + ain) (y - aout)) by exact Hk1'. cbn [mbind option_bind].
  rewrite integer_sqrt_total by exact Hk1. cbn [mbind option_bind].
  pose proof (N.sqrt_le_mono _ _ Hk) as Hsq.
  pose proof (sqrt_lt_W128 ((x + ain) * (y - aout))) as HnW. specialize (HnW Hk1').
  pose proof (sqrt_pos_mul x y Hx Hy) as Hpp.
  set (prev := N.sqrt (x * y)) in *. set (new := N.sqrt ((x + ain) * (y - aout))) in *.
  rewrite ensure_intro by now apply N.leb_le. cbn [mbind option_bind sp_set_amounts sp_supply].
  rewrite (cmul_intro W256 (new - prev) (sp_supply p)) by (rewrite W256_W128; nia). cbn [mbind option_bind admin_fee_bps].
  destruct (N.ltb_spec 0 (admin_fee_bps f)) as [Hb0|]; cbn [andb]; [|eauto].
  destruct (0 <? (new - prev) * sp_supply p); [|eauto].
  rewrite cmul_intro. 2:{ rewrite W256_W128. assert (FEE_DIVISOR < W128) by (vm_compute; reflexivity). nia. }
  cbn [mbind option_bind]. rewrite cdiv_intro by done. cbn [mbind option_bind].
  assert (Hd : 0 < prev * FEE_DIVISOR / admin_fee_bps f).
  { assert (1 <= prev * FEE_DIVISOR / admin_fee_bps f); [|lia]. apply div_le_iff; [done|]. nia. }
  rewrite cdiv_intro by done. cbn [mbind option_bind].
  pose proof (minted_bound (sp_supply p) prev new _ Hb Hsq Hd Hb0) as Hm.
  set (m := (new - prev) * sp_supply p / _) in *.
  assert (sp_supply p + m < W128) by nia.
  rewrite fit_intro by lia. cbn [mbind option_bind sp_referral_share referral_info].
  change (0 <? 0) with false. cbn [mbind option_bind]. rewrite csub_intro by lia. cbn [mbind option_bind].
  apply sp_mint_view_defined. cbn [sp_set_amounts sp_supply]. right. lia.
Qed.

Lemma swap_defined p ti a to f :
  sp_wf p -> ti <> to -> ti ∈ sp_tokens p -> to ∈ sp_tokens p ->
  0 < sp_supply p -> 0 < a ->
  sp_reserve p ti + a < W128 -> a * FEE_DIVISOR * sp_reserve p to < W256 ->
  admin_fee_bps f <= FEE_DIVISOR ->
  (forall rid rfee, referral_info f = Some (rid, rfee) -> rfee <= FEE_DIVISOR) ->
  sp_supply p * N.sqrt ((sp_reserve p ti + a) * sp_reserve p to)
    < W128 * N.sqrt (sp_reserve p ti * sp_reserve p to) ->
  is_Some (sp_swap p ti a to 0 f false).
Proof.
  intros Hwf Hne Hti Hto HS Ha Hin Hov Hb Hr Hsup.
  pose proof Hwf as (Hnd & Hl & (x0 & y0 & Hxy & Hx0W & Hy0W & _) & Hfee & HsW & Hsum).
  apply elem_of_list_lookup in Hti as [i Hi], Hto as [j Hj].
  assert (Hij : i <> j) by (intros ->; congruence).
  pose proof (position_NoDup _ _ _ Hnd Hi) as Pi. pose proof (position_NoDup _ _ _ Hnd Hj) as Pj.
  assert (exists x, sp_amounts p !! i = Some x) as [x Ax].
  { apply lookup_lt_Some in Hi. rewrite Hl in Hi. rewrite Hxy. destruct i as [|[|i]]; cbn; eauto; lia. }
  assert (exists y, sp_amounts p !! j = Some y) as [y Ay].
  { apply lookup_lt_Some in Hj. rewrite Hl in Hj. rewrite Hxy. destruct j as [|[|j]]; cbn; eauto; lia. }
  rewrite (sp_reserve_at p ti i x), (sp_reserve_at p to j y) in * by done.
  assert (HyW : y < W128). { rewrite Hxy in Ay. destruct j as [|[|j]]; cbn in Ay; try discriminate Ay; inv; subst; done. }
  assert (Hx : 0 < x). { rewrite <- (sp_reserve_at p ti i x) by done. apply reserves_iff_supply; eauto using elem_of_list_lookup_2. }
  assert (Hy : 0 < y). { rewrite <- (sp_reserve_at p to j y) by done. apply reserves_iff_supply; eauto using elem_of_list_lookup_2. }
  unfold sp_swap, sp_token_index. rewrite Pi, Pj.
  rewrite ensure_intro by (apply negb_true_iff, String.eqb_neq; done). cbn [mbind option_bind].
  assert (Hret : sp_internal_get_return p i a j =
    Some (a * (FEE_DIVISOR - sp_fee p) * y / (FEE_DIVISOR * x + a * (FEE_DIVISOR - sp_fee p)))).
  { unfold sp_internal_get_return, vget. rewrite Ax, Ay. cbn [mbind option_bind].
    rewrite ensure_intro. 2:{ rewrite (proj2 (Nat.eqb_neq i j)) by done. cbn.
      rewrite !(proj2 (N.ltb_lt _ _)) by done. done. }
    cbn [mbind option_bind]. rewrite csub_intro by lia. cbn [mbind option_bind].
    assert (10000 < W128) by (vm_compute; reflexivity). unfold FEE_DIVISOR in *.
    set (g := 10000 - sp_fee p) in *. assert (Hg : g <= 10000) by lia. clearbody g.
    assert (HaW : a < W128) by lia.
    assert (Hag : a * g < W256) by (rewrite W256_W128; nia).
    rewrite (cmul_intro W256 a g) by done. cbn [mbind option_bind].
    rewrite (cmul_intro W256 (a * g) y) by nia. cbn [mbind option_bind].
    rewrite (cmul_intro W256 10000 x) by (rewrite W256_W128; nia). cbn [mbind option_bind].
    assert (Hden : 10000 * x + a * g < W256).
    { assert (10000 * x + a * g <= 10000 * (x + a)) by nia.
      assert (10000 * (x + a) < W128 * W128) by nia. rewrite W256_W128. lia. }
    rewrite cadd_intro by done. cbn [mbind option_bind].
    rewrite cdiv_intro by nia. cbn [mbind option_bind].
    apply fit_intro. etransitivity; [apply (cp_out_lt x y); done|done]. }
  rewrite Hret. cbn [mbind option_bind].
  pose proof (cp_out_lt x y a (FEE_DIVISOR - sp_fee p) Hx Hy) as Hlt.
  pose proof (cp_product x y a (FEE_DIVISOR - sp_fee p) Hx ltac:(lia)) as Hprod.
  set (out := _ / _) in *.
  rewrite ensure_intro by (apply N.leb_le; lia). cbn [mbind option_bind].
  destruct (update_defined p i a j out f x y) as [q Hq]; auto.
  { eapply N.le_lt_trans; [|exact Hsup]. apply N.mul_le_mono_l, N.sqrt_le_mono. nia. }
  rewrite Hq. cbn. eauto.
Qed.

(** ** C12 *)
Lemma update_fee_split p i ain j aout f p' :
  i <> j -> sp_update_pool_and_distribute_fee p i ain j aout f false = Some p' ->
  exists total r,
    sp_supply p' = sp_supply p + total /\ r <= total /\
    match referral_info f with
    | Some (rid, rfee) =>
        (sp_shares p !! rid = None -> r = 0) /\
        (is_Some (sp_shares p !! rid) -> r = total * rfee / FEE_DIVISOR) /\
        (forall a, sp_share_of p' a = sp_share_of p a + (if String.eqb rid a then r else 0)
                                     + (if String.eqb (exchange_id f) a then total - r else 0))
    | None =>
        r = 0 /\
        (forall a, sp_share_of p' a = sp_share_of p a + (if String.eqb (exchange_id f) a then total else 0))
    end.
Proof.
  intros Hij H.
  apply sp_update_inv in H as (x' & y' & r & e & _ & _ & _ & _ & -> & _ & _ & Hr & _); [|done].
  exists (r + e), r. cbn [sp_supply]. split; [lia|]. split; [lia|].
  destruct (referral_info f) as [[rid rfee]|].
  - unfold sp_share_has_registered in Hr. split_and!.
    + intros Hn. rewrite bool_decide_eq_false_2 in Hr; [done|]. rewrite Hn. intros [? [=]].
    + intros Hs. rewrite bool_decide_eq_true_2 in Hr; done.
    + intros a. change (sp_share_of ?p ?h) with (shares_get (sp_shares p) h). cbn [sp_shares].
      rewrite !shares_get_credit. replace (r + e - r) with e by lia. done.
  - split; [done|]. intros a. change (sp_share_of ?p ?h) with (shares_get (sp_shares p) h). cbn [sp_shares].
    rewrite !shares_get_credit. subst r. now rewrite N.add_0_l.
Qed.
