(** * Proofs about the simple pool *)
From Verif Require Import Base BaseLemmas Sqrt SqrtProofs SimplePool.

(** Adding [s] to the entry of [a]; nothing happens for [s = 0]. *)
Definition credit (m : gmap AccountId N) (a : AccountId) (s : N) : gmap AccountId N :=
  if s =? 0 then m else <[a := shares_get m a + s]> m.

Lemma shares_get_credit m a s b :
  shares_get (credit m a s) b = shares_get m b + (if String.eqb a b then s else 0).
Proof.
  unfold credit. destruct (N.eqb_spec s 0) as [->|].
  - destruct (String.eqb a b); lia.
  - destruct (String.eqb_spec a b) as [->|Hne].
    + now rewrite shares_get_insert.
    + rewrite shares_get_insert_ne by done. lia.
Qed.
Lemma shares_sum_credit m a s : shares_sum (credit m a s) = shares_sum m + s.
Proof.
  unfold credit. destruct (N.eqb_spec s 0) as [->|]; [lia|].
  pose proof (shares_sum_insert m a (shares_get m a + s)). lia.
Qed.

Lemma sp_mint_inv p a s v p' :
  sp_mint_shares p a s v = Some p' ->
  p' = mkSimplePool (sp_tokens p) (sp_amounts p) (sp_fee p)
         (if v then sp_shares p else credit (sp_shares p) a s) (sp_supply p + s)
  /\ (sp_supply p < W128 -> sp_supply p + s < W128).
Proof.
  unfold sp_mint_shares, credit. destruct p as [t am fe sh su]; cbn.
  destruct (N.eqb_spec s 0) as [->|Hs].
  - intros [= <-]. rewrite N.add_0_r. now destruct v.
  - intros H. inv. subst. destruct v; inv; subst; [auto|].
    match goal with H : add_to_collection _ _ _ = Some _ |- _ => apply add_to_collection_Some in H as [-> _] end. auto.
Qed.

(** The view and the mutating mint have the same definedness when the shares sum to the supply. *)
Lemma sp_mint_view p a s :
  shares_sum (sp_shares p) = sp_supply p ->
  is_Some (sp_mint_shares p a s false) <-> is_Some (sp_mint_shares p a s true).
Proof.
  intros Hsum. unfold sp_mint_shares.
  destruct (N.eqb_spec s 0); [done|].
  unfold cadd at 1 2, fit. destruct (N.ltb_spec (sp_supply p + s) W128); cbn; [|done].
  unfold add_to_collection. pose proof (shares_get_le (sp_shares p) a).
  cbn [sp_set_supply sp_shares]. rewrite cadd_intro by lia. cbn. split; eauto.
Qed.

(** ** Well-formed pools *)
Definition sp_wf (p : SimplePool) : Prop :=
  NoDup (sp_tokens p) /\ length (sp_tokens p) = 2%nat /\
  (exists x y, sp_amounts p = [x; y] /\ x < W128 /\ y < W128 /\
     (sp_supply p = 0 /\ x = 0 /\ y = 0 \/ 0 < sp_supply p /\ 0 < x /\ 0 < y)) /\
  sp_fee p < FEE_DIVISOR /\
  sp_supply p < W128 /\
  shares_sum (sp_shares p) = sp_supply p.

Lemma sp_new_wf tokens fee p : NoDup tokens -> sp_new tokens fee = Some p -> sp_wf p.
Proof.
  unfold sp_new; intros Hnd H; inv; subst. bool_inv. apply Nat.eqb_eq in Hx0.
  unfold sp_wf; cbn [sp_tokens sp_amounts sp_supply sp_fee sp_shares].
  pose proof W128_pos. split_and!; auto. exists 0, 0. split_and!; auto.
Qed.

(** ** Swap *)
(** What [update_pool_and_distribute_fee] does. *)
Lemma sp_update_inv p i ain j aout f v p' :
  sp_update_pool_and_distribute_fee p i ain j aout f v = Some p' -> i <> j ->
  exists x y r e,
    sp_amounts p !! i = Some x /\ sp_amounts p !! j = Some y /\
    x + ain < W128 /\ aout <= y /\
    p' = mkSimplePool (sp_tokens p) (<[j := y - aout]> (<[i := x + ain]> (sp_amounts p))) (sp_fee p)
           (if v then sp_shares p else
              credit (match referral_info f with Some (rid, _) => credit (sp_shares p) rid r | None => sp_shares p end)
                (exchange_id f) e)
           (sp_supply p + r + e) /\
    N.sqrt (x * y) <= N.sqrt ((x + ain) * (y - aout)) /\
    (sp_supply p < W128 -> sp_supply p + r + e < W128) /\
    (match referral_info f with
     | Some (rid, rfee) => r = if sp_share_has_registered p rid then (r + e) * rfee / FEE_DIVISOR else 0
     | None => r = 0
     end) /\
    r + e = (if (0 <? admin_fee_bps f) &&
                (0 <? (N.sqrt ((x + ain) * (y - aout)) - N.sqrt (x * y)) * sp_supply p)
             then (N.sqrt ((x + ain) * (y - aout)) - N.sqrt (x * y)) * sp_supply p
                    / (N.sqrt (x * y) * FEE_DIVISOR / admin_fee_bps f)
             else 0) /\
    (r + e <> 0 -> 0 < N.sqrt (x * y) * FEE_DIVISOR / admin_fee_bps f /\ 0 < admin_fee_bps f).
Proof.
  unfold sp_update_pool_and_distribute_fee, vget; intros H Hij. inv. subst.
  apply vset_Some in Hx4 as [-> Hi]. rewrite list_lookup_insert_ne in Hx5 by done.
  rewrite Hx0 in Hx5. injection Hx5 as <-.
  apply vset_Some in Hx7 as [-> Hj].
  rewrite list_lookup_insert in Hx9 by done. injection Hx9 as <-.
  rewrite list_lookup_insert_ne, list_lookup_insert in Hx8 by done. injection Hx8 as <-.
  apply integer_sqrt_N in Hx2 as ->. apply integer_sqrt_N in Hx11 as ->.
  bool_inv. cbn [sp_set_amounts sp_supply] in *.
  destruct ((0 <? admin_fee_bps f) && _) eqn:E.
  - pose proof E as E'. apply andb_true_iff in E' as [E1 E2]. apply N.ltb_lt in E1.
    inv. subst. rename x into ix, x0 into iy.
    unfold sp_referral_share in *. unfold sp_share_has_registered in *. cbn [sp_set_amounts sp_shares] in *.
    set (ad := (N.sqrt ((ix + ain) * (iy - aout)) - N.sqrt (ix * iy)) * sp_supply p
                 / (N.sqrt (ix * iy) * FEE_DIVISOR / admin_fee_bps f)) in *.
    apply sp_mint_inv in H as [Hp' HS].
    match goal with H : (if 0 <? ?r then _ else _) = Some _ |- _ => rename H into Hm; destruct (0 <? r) eqn:Er end.
    + destruct (referral_info f) as [[rid rfee]|] eqn:Ef; [|discriminate].
      apply sp_mint_inv in Hm as [Hp2 HS2]. cbn in Hp2, HS2.
      match type of Hp2 with ?x = _ => subst x end. cbn in Hp', HS. subst p'.
      match goal with H : (if bool_decide _ then _ else _) = Some ?r |- _ => rename r into rs; rename H into Hr end.
      exists ix, iy, rs, (ad - rs). rewrite E. fold ad.
      split_and!; auto.
      * f_equal. destruct v; reflexivity.
      * case_bool_decide; [|by inv]. replace (rs + (ad - rs)) with ad by lia.
        apply u128_ratio_Some in Hr. tauto.
      * lia.
    + apply mret_Some in Hm. match type of Hm with _ = ?x => subst x end. apply N.ltb_ge in Er. cbn in Hp', HS. subst p'.
      match goal with H : _ = Some ?r, Er : ?r <= 0 |- _ => assert (r = 0) by lia; subst r; rename H into Hr end.
      exists ix, iy, 0, (ad - 0). rewrite E. fold ad.
      split_and!; auto.
      * rewrite N.add_0_r. f_equal. destruct v, (referral_info f) as [[rid rfee]|]; reflexivity.
      * rewrite N.add_0_r. auto.
      * destruct (referral_info f) as [[rid rfee]|]; [|done].
        case_bool_decide; [|done]. rewrite N.add_0_l, N.sub_0_r. now apply u128_ratio_Some in Hr.
      * lia.
  - inv. subst. exists x, x0, 0, 0. rewrite E.
    rewrite !N.add_0_r. split_and!; auto.
    + unfold sp_set_amounts. f_equal. destruct v, (referral_info f) as [[rid rfee]|]; reflexivity.
    + destruct (referral_info f) as [[rid rfee]|]; [|done].
      destruct (sp_share_has_registered p rid); [|done]. now rewrite N.mul_0_l, div_zero_l.
    + done.
Qed.

(** Exact-input formula. *)
Lemma sp_get_return_inv p i ain j out :
  sp_internal_get_return p i ain j = Some out ->
  exists x y,
    sp_amounts p !! i = Some x /\ sp_amounts p !! j = Some y /\ 0 < x /\ 0 < y /\ i <> j /\ 0 < ain /\
    sp_fee p <= FEE_DIVISOR /\
    out = ain * (FEE_DIVISOR - sp_fee p) * y / (FEE_DIVISOR * x + ain * (FEE_DIVISOR - sp_fee p)).
Proof.
  unfold sp_internal_get_return, vget; intros H; inv; subst. bool_inv.
  match goal with H : (_ =? _)%nat = false |- _ => apply Nat.eqb_neq in H end.
  exists x, x0. split_and!; auto.
Qed.

(** Exact-output formula. *)
Lemma sp_get_return_by_output_inv p i aout j ain :
  sp_internal_get_return_by_output p i aout j = Some ain ->
  exists x y,
    sp_amounts p !! i = Some x /\ sp_amounts p !! j = Some y /\ 0 < x /\ 0 < y /\ i <> j /\ 0 < aout /\
    sp_fee p < FEE_DIVISOR /\ aout < y /\
    ain = x * aout * FEE_DIVISOR / ((y - aout) * (FEE_DIVISOR - sp_fee p)) + 1.
Proof.
  unfold sp_internal_get_return_by_output, vget; intros H; inv; subst. bool_inv.
  match goal with H : (_ =? _)%nat = false |- _ => apply Nat.eqb_neq in H end.
  exists x, x0. split_and!; auto; nia.
Qed.

(** *** Pure arithmetic of the constant product formula.  [g = FEE_DIVISOR - fee]. *)
Lemma cp_out_lt x y a g : 0 < x -> 0 < y -> a * g * y / (FEE_DIVISOR * x + a * g) < y.
Proof.
  intros Hx Hy. apply N.div_lt_upper_bound; unfold FEE_DIVISOR; nia.
Qed.

Lemma cp_product x y a g :
  0 < x -> g <= FEE_DIVISOR ->
  x * y <= (x + a) * (y - a * g * y / (FEE_DIVISOR * x + a * g)).
Proof.
  intros Hx Hg.
  assert (Hd : 0 < FEE_DIVISOR * x + a * g) by (unfold FEE_DIVISOR; nia).
  pose proof (div_mul_le (a * g * y) _ Hd) as Hq.
  set (q := a * g * y / (FEE_DIVISOR * x + a * g)) in *.
  destruct (N.eq_dec y 0) as [->|Hy]; [lia|].
  assert (q < y) by (apply cp_out_lt; lia).
  assert (q * (x + a) <= a * y); [|nia].
  (* q*(D x + a g) <= a g y and g <= D *)
  unfold FEE_DIVISOR in *.
  assert (q * (10000 * x + 10000 * a) <= 10000 * a * y); [|lia].
  destruct (N.eq_dec g 0) as [->|Hg0]; [nia|].
  assert (q * x * 10000 <= a * g * (y - q)) by nia.
  assert (a * g * (y - q) <= a * 10000 * (y - q)) by nia.
  nia.
Qed.

Lemma cp_product_by_output x y b g :
  b < y -> 0 < g -> g <= FEE_DIVISOR ->
  x * y <= (x + (x * b * FEE_DIVISOR / ((y - b) * g) + 1)) * (y - b).
Proof.
  intros Hb Hg Hg'.
  assert (Hd : 0 < (y - b) * g) by nia.
  pose proof (lt_div_succ (x * b * FEE_DIVISOR) _ Hd) as Hq.
  set (q := x * b * FEE_DIVISOR / ((y - b) * g)) in *.
  assert (x * b <= (q + 1) * (y - b)); [|nia].
  unfold FEE_DIVISOR in *.
  assert ((q + 1) * ((y - b) * g) <= (q + 1) * (y - b) * 10000) by nia.
  nia.
Qed.

(** [swap] in terms of the two reserves. *)
Lemma sp_swap_inv p ti ain to mn f v p' out :
  sp_swap p ti ain to mn f v = Some (p', out) ->
  ti <> to /\ mn <= out /\
  exists i j x y,
    position ti (sp_tokens p) = Some i /\ position to (sp_tokens p) = Some j /\ i <> j /\
    sp_amounts p !! i = Some x /\ sp_amounts p !! j = Some y /\ 0 < x /\ 0 < y /\ 0 < ain /\
    sp_fee p <= FEE_DIVISOR /\
    out = ain * (FEE_DIVISOR - sp_fee p) * y / (FEE_DIVISOR * x + ain * (FEE_DIVISOR - sp_fee p)) /\
    sp_update_pool_and_distribute_fee p i ain j out f v = Some p'.
Proof.
  unfold sp_swap, sp_token_index; intros H; inv; subst. bool_inv.
  match goal with H : sp_internal_get_return _ _ _ _ = _ |- _ =>
    apply sp_get_return_inv in H as (a & b & ? & ? & ? & ? & ? & ? & ? & ?) end.
  split; [done|]. split; [done|]. do 4 eexists; repeat split; eauto.
Qed.

Lemma sp_swap_by_output_inv p ti aout to mx f v p' ain :
  sp_swap_by_output p ti aout to mx f v = Some (p', ain) ->
  ti <> to /\ (forall m, mx = Some m -> ain <= m) /\
  exists i j x y,
    position ti (sp_tokens p) = Some i /\ position to (sp_tokens p) = Some j /\ i <> j /\
    sp_amounts p !! i = Some x /\ sp_amounts p !! j = Some y /\ 0 < x /\ 0 < y /\ 0 < aout /\ aout < y /\
    sp_fee p < FEE_DIVISOR /\
    ain = x * aout * FEE_DIVISOR / ((y - aout) * (FEE_DIVISOR - sp_fee p)) + 1 /\
    sp_update_pool_and_distribute_fee p i ain j aout f v = Some p'.
Proof.
  unfold sp_swap_by_output, sp_token_index; intros H; inv; subst. bool_inv.
  match goal with H : sp_internal_get_return_by_output _ _ _ _ = _ |- _ =>
    apply sp_get_return_by_output_inv in H as (a & b & ? & ? & ? & ? & ? & ? & ? & ? & ?) end.
  split; [done|]. split.
  - intros m ->. now apply N.leb_le.
  - do 4 eexists; repeat split; eauto.
Qed.
