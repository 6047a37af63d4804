(** * Proofs about stable, rated and degen pools *)
From Verif Require Import Base BaseLemmas SimplePool SpecSimple SimplePoolProofs StableMath
  StableMathProofs StablePool SpecStable.

Definition st_wf (p : StablePool) : Prop :=
  NoDup (st_tokens p) /\ length (st_decimals p) = length (st_tokens p) /\
  length (st_c p) = length (st_tokens p) /\
  Forall (fun c => c < W128) (st_c p) /\
  st_supply p < W128 /\ shares_sum (st_shares p) = st_supply p /\
  Forall (fun d => MIN_DECIMAL <= d <= MAX_DECIMAL) (st_decimals p) /\
  st_fee p < FEE_DIVISOR.

(** ** Vectors *)
Lemma vadd_Forall2 xs ys zs :
  vadd xs ys = Some zs -> length xs = length ys /\ zs = zip_with N.add xs ys /\ Forall (fun z => z < W128) zs.
Proof.
  revert ys zs; induction xs as [|x xs IH]; intros [|y ys] zs H; cbn [vadd] in H; inv; subst; try done.
  match goal with H : vadd _ _ = _ |- _ => apply IH in H as (? & ? & ?) end. subst.
  cbn [length zip_with]. split_and!; auto.
Qed.
Lemma vsub_Forall2 xs ys zs :
  vsub xs ys = Some zs -> length xs = length ys /\ zs = zip_with N.sub xs ys /\ Forall2 (fun y x => y <= x) ys xs.
Proof.
  revert ys zs; induction xs as [|x xs IH]; intros [|y ys] zs H; cbn [vsub] in H; inv; subst; try done.
  match goal with H : vsub _ _ = _ |- _ => apply IH in H as (? & ? & ?) end. subst.
  cbn [length zip_with]. split_and!; auto.
Qed.

Lemma conv_all_Some f ds xs ys :
  conv_all f ds xs = Some ys -> length xs = length ds /\ length ys = length ds /\
  forall i y, ys !! i = Some y -> exists d x, ds !! i = Some d /\ xs !! i = Some x /\ f d x = Some y.
Proof.
  revert xs ys; induction ds as [|d ds IH]; intros [|x xs] ys H; cbn [conv_all] in H; inv; subst; try done.
  match goal with H : conv_all _ _ _ = _ |- _ => apply IH in H as (? & ? & Hl) end.
  cbn [length]. split; [lia|]. split; [lia|].
  intros [|i] y Hy; cbn in Hy; [injection Hy as <-; eauto|]. apply Hl in Hy. exact Hy.
Qed.

Lemma lookup_beside_idx ts i t xs :
  NoDup ts -> ts !! i = Some t -> lookup_beside t ts xs = xs !! i.
Proof.
  revert i xs; induction ts as [|t' ts IH]; intros i xs Hnd Hi; [destruct i; discriminate|].
  inversion Hnd; subst. destruct i as [|i]; cbn in Hi.
  - injection Hi as ->. destruct xs as [|x xs]; [done|]. cbn [lookup_beside]. now rewrite String.eqb_refl.
  - destruct xs as [|x xs]; [done|]. cbn [lookup_beside].
    destruct (String.eqb_spec t' t) as [->|]; [exfalso; eauto using elem_of_list_lookup_2|].
    now rewrite (IH i).
Qed.
Lemma lookup_beside_notin ts t xs : t ∉ ts -> lookup_beside t ts xs = None.
Proof.
  revert xs; induction ts as [|t' ts IH]; intros [|x xs] Hn; try done. cbn [lookup_beside].
  rewrite not_elem_of_cons in Hn. destruct (String.eqb_spec t' t) as [->|]; [tauto|]. now apply IH.
Qed.
Lemma beside_idx ts i t xs x :
  NoDup ts -> ts !! i = Some t -> xs !! i = Some x -> beside t ts xs = x.
Proof. intros Hnd Hi Hx. unfold beside. now rewrite (lookup_beside_idx _ i), Hx. Qed.
Lemma beside_notin ts t xs : t ∉ ts -> beside t ts xs = 0.
Proof. intros. unfold beside. now rewrite lookup_beside_notin. Qed.

(** ** Unit conversion *)
Lemma target_kept k : target_decimal k = kept_decimals k. Proof. now destruct k. Qed.

Lemma from_c_Some k d c a : from_c k d c = Some a -> a = in_token_units (kept_decimals k) d c.
Proof.
  unfold from_c, in_token_units. rewrite target_kept.
  destruct (d <=? kept_decimals k); intros H; inv; subst; auto.
Qed.

Lemma pow10_pos n : 0 < 10 ^ n.
Proof. apply N.neq_0_lt_0, N.pow_nonzero. discriminate. Qed.

(** The comparable amount for a raw amount. *)
Lemma to_c_Some k d a c :
  to_c k d a = Some c ->
  c = if d <=? kept_decimals k then a * 10 ^ (kept_decimals k - d) else a / 10 ^ (d - kept_decimals k).
Proof.
  unfold to_c. rewrite target_kept. destruct (d <=? kept_decimals k); intros H; inv; subst; auto.
Qed.

(** Adding the converted amount adds at most the raw amount. *)
Lemma units_add T d c a :
  in_token_units T d (c + (if d <=? T then a * 10 ^ (T - d) else a / 10 ^ (d - T))) <= in_token_units T d c + a.
Proof.
  unfold in_token_units. destruct (d <=? T).
  - rewrite N.div_add; [lia|]. pose proof (pow10_pos (T - d)); lia.
  - pose proof (pow10_pos (d - T)) as Hp. pose proof (div_mul_le a _ Hp). nia.
Qed.
Lemma units_add_exact T d c a :
  d <= T -> in_token_units T d (c + a * 10 ^ (T - d)) = in_token_units T d c + a.
Proof.
  unfold in_token_units. intros H. apply N.leb_le in H as ->.
  apply N.div_add. pose proof (pow10_pos (T - d)); lia.
Qed.
(** Units are superadditive and monotone. *)
Lemma units_superadd T d c s : in_token_units T d c + in_token_units T d s <= in_token_units T d (c + s).
Proof.
  unfold in_token_units. destruct (d <=? T); [|lia]. apply div_superadd, pow10_pos.
Qed.
Lemma units_mono T d c c' : c <= c' -> in_token_units T d c <= in_token_units T d c'.
Proof.
  unfold in_token_units. intros. destruct (d <=? T); [|nia].
  apply N.div_le_mono; [|done]. pose proof (pow10_pos (T - d)); lia.
Qed.
(** Removing the converted amount removes at least the raw amount, up to the part of it that cannot be
    represented in kept decimals. *)
Lemma units_sub T d c a x :
  x = (if d <=? T then a * 10 ^ (T - d) else a / 10 ^ (d - T)) -> x <= c ->
  in_token_units T d (c - x) + a <= in_token_units T d c + a mod 10 ^ (d - T).
Proof.
  intros -> Hle. unfold in_token_units in *. destruct (N.leb_spec d T) as [H|H].
  - replace (d - T) with 0 by lia. change (10 ^ 0) with 1. rewrite N.mod_1_r, N.add_0_r.
    set (f := 10 ^ (T - d)) in *. assert (0 < f) by apply pow10_pos.
    rewrite <- (N.div_add _ a f) by lia. apply N.div_le_mono; lia.
  - set (f := 10 ^ (d - T)) in *. assert (0 < f) by apply pow10_pos.
    pose proof (N.div_mod a f ltac:(lia)) as Ha.
    set (q := a / f) in *. set (r := a mod f) in *. clearbody q r f. rewrite N.mul_sub_distr_r. nia.
Qed.

(** ** Shares *)
Lemma lookup_credit_ne m a s h : a <> h -> credit m a s !! h = m !! h.
Proof. intros. unfold credit. destruct (s =? 0); [done|]. now rewrite lookup_insert_ne. Qed.

Lemma st_mint_inv p a s v p' :
  st_mint_shares p a s v = Some p' ->
  p' = st_set_supply (st_set_shares p (if v then st_shares p else credit (st_shares p) a s)) (st_supply p + s)
  /\ (st_supply p < W128 -> st_supply p + s < W128).
Proof.
  unfold st_mint_shares, credit, st_set_supply, st_set_shares. destruct p as [k t d c fe sh su ia ta it sto]; cbn.
  destruct (N.eqb_spec s 0) as [->|Hs].
  - intros [= <-]. rewrite N.add_0_r. now destruct v.
  - intros H. inv. subst. destruct v; inv; subst; [auto|].
    match goal with H : add_to_collection _ _ _ = Some _ |- _ => apply add_to_collection_Some in H as [-> _] end. auto.
Qed.

(** Two pools that differ only in their shares and supply. *)
Definition same_but_shares (p p' : StablePool) : Prop :=
  st_set_supply (st_set_shares p' (st_shares p)) (st_supply p) = p.

(** Minting two amounts. *)
Lemma st_mint2_inv p a s b r v p1 p' :
  st_mint_shares p a s v = Some p1 -> st_mint_shares p1 b r v = Some p' ->
  p' = st_set_supply (st_set_shares p (if v then st_shares p else credit (credit (st_shares p) a s) b r))
         (st_supply p + (s + r))
  /\ (st_supply p < W128 -> st_supply p + (s + r) < W128).
Proof.
  intros H1 H2. apply st_mint_inv in H1 as [-> HW1]. apply st_mint_inv in H2 as [-> HW2].
  unfold st_set_supply, st_set_shares in *. cbn [st_supply st_shares st_kind st_tokens st_decimals st_c st_fee
    st_init_amp st_target_amp st_init_time st_stop_time] in *.
  rewrite N.add_assoc. split; [destruct v; reflexivity|]. auto.
Qed.

Lemma st_mint_fee_inv p fee f v p' :
  st_mint_fee_part p fee f v = Some p' ->
  exists m s,
    p' = st_set_supply (st_set_shares p (if v then st_shares p else m)) (st_supply p + s) /\
    shares_sum m = shares_sum (st_shares p) + s /\
    (st_supply p < W128 -> st_supply p + s < W128) /\
    s = fee * admin_fee_bps f / FEE_DIVISOR /\
    (forall h, shares_get (st_shares p) h <= shares_get m h) /\
    (forall h, h <> exchange_id f -> (forall rid rfee, referral_info f = Some (rid, rfee) -> h <> rid) ->
       m !! h = st_shares p !! h).
Proof.
  unfold st_mint_fee_part. destruct (N.ltb_spec 0 fee) as [Hf|Hf].
  - intros H. apply bind_Some in H as (ad & Had & H). apply bind_Some in H as ([rs0 rid] & Hrs & H).
    set (rs := if _ && _ then 0 else rs0) in H. clearbody rs.
    apply bind_Some in H as (p1 & H1 & H). apply bind_Some in H as (rest & Hrest & H2).
    apply csub_Some in Hrest as [-> Hle].
    destruct (st_mint2_inv _ _ _ _ _ _ _ _ H1 H2) as [-> HW]. apply u128_ratio_Some in Had as (-> & _ & _).
    eexists (credit (credit (st_shares p) rid rs) (exchange_id f) _), _. split; [reflexivity|].
    split; [rewrite !shares_sum_credit; dlia|]. split; [exact HW|]. split; [dlia|]. split.
    + intros h. rewrite !shares_get_credit. lia.
    + intros h Hex Hr. assert (Hrid : rid <> h).
      { unfold calc_referral_share in Hrs. destruct (referral_info f) as [[rid' rfee]|]; inv; subst.
        - intros ->. now apply (Hr _ _ eq_refl).
        - auto. }
      rewrite !lookup_credit_ne by auto. done.
  - intros H. inv. subst. exists (st_shares p'), 0. assert (fee = 0) by lia. subst.
    split; [destruct v, p'; unfold st_set_supply, st_set_shares; cbn; now rewrite N.add_0_r|].
    rewrite !N.add_0_r, N.mul_0_l, div_zero_l. split_and!; auto.
Qed.

Ltac st_unfold := unfold st_set_supply, st_set_shares, st_set_c, st_set_fee, st_set_amp in *;
  cbn [st_supply st_shares st_kind st_tokens st_decimals st_c st_fee
       st_init_amp st_target_amp st_init_time st_stop_time] in *.

(** ** Add liquidity *)
Lemma st_add_inv p e s am mn f v p' sh :
  st_add_liquidity p e s am mn f v = Some (p', sh) ->
  exists rates cam c' fee m s2,
    length am = length (st_tokens p) /\ st_get_rates p e = Some rates /\
    st_calc_add_liquidity p e rates am f = Some (sh, fee) /\ mn <= sh /\
    st_amounts_to_c p am = Some cam /\ vadd (st_c p) cam = Some c' /\
    p' = st_set_supply (st_set_shares (st_set_c p c') (if v then st_shares p else m)) (st_supply p + sh + s2) /\
    shares_sum m = shares_sum (st_shares p) + sh + s2 /\
    (st_supply p < W128 -> st_supply p + sh + s2 < W128) /\
    s2 = fee * admin_fee_bps f / FEE_DIVISOR /\
    (forall h, shares_get (st_shares p) h <= shares_get m h) /\
    (forall h, h <> s -> h <> exchange_id f -> (forall rid rfee, referral_info f = Some (rid, rfee) -> h <> rid) ->
       m !! h = st_shares p !! h).
Proof.
  unfold st_add_liquidity. intros H.
  apply bind_Some in H as ([] & Hlen & H). apply ensure_Some, Nat.eqb_eq in Hlen.
  apply bind_Some in H as (rates & Hr & H). apply bind_Some in H as ([sh' fee] & Hcalc & H).
  apply bind_Some in H as ([] & Hmn & H). apply ensure_Some, N.leb_le in Hmn.
  apply bind_Some in H as (cam & Hcam & H). apply bind_Some in H as (c' & Hc' & H).
  apply bind_Some in H as (p1 & H1 & H). apply bind_Some in H as (p2 & H2 & H). inv. subst sh' p2.
  apply st_mint_inv in H1 as [-> HW1]. apply st_mint_fee_inv in H2 as (m & s2 & -> & Hm & HW2 & Hs2 & Hle & Hne).
  st_unfold.
  exists rates, cam, c', fee, (if v then credit (credit (st_shares p) s sh) s s2 else m), s2.
  destruct v.
  - split_and!; auto.
    + rewrite !shares_sum_credit. done.
    + intros h. rewrite !shares_get_credit. lia.
    + intros h Hs _ _. rewrite !lookup_credit_ne; auto.
  - split_and!; auto.
    + rewrite Hm, shares_sum_credit. done.
    + intros h. specialize (Hle h). rewrite shares_get_credit in Hle. lia.
    + intros h Hs Hx Hr'. rewrite Hne, lookup_credit_ne; auto.
Qed.

Lemma st_amounts_to_c_lookup p am cam i x :
  st_amounts_to_c p am = Some cam -> cam !! i = Some x ->
  exists d a, st_decimals p !! i = Some d /\ am !! i = Some a /\ to_c (st_kind p) d a = Some x.
Proof. unfold st_amounts_to_c. intros H. apply conv_all_Some in H as (_ & _ & H). apply H. Qed.

Lemma st_wf_add p e s am mn f p' sh : st_wf p -> st_add_liquidity p e s am mn f false = Some (p', sh) -> st_wf p'.
Proof.
  intros (Hnd & Hld & Hlc & HcW & HsW & Hsum & Hdec & Hfee) H.
  apply st_add_inv in H as (rates & cam & c' & fee & m & s2 & Hlen & _ & _ & _ & Hcam & Hc' & -> & Hm & HW & _).
  apply vadd_Forall2 in Hc' as (Hl & -> & HF).
  unfold st_wf. st_unfold. split_and!; auto.
  - rewrite zip_with_length. lia.
  - rewrite Hm, Hsum. done.
Qed.

(** Reserves seen per token: it is enough to look at one index. *)
Lemma st_kept_idx p i t c : st_wf p -> st_tokens p !! i = Some t -> st_c p !! i = Some c -> st_kept p t = c.
Proof. intros (Hnd & _) Ht Hc. eapply beside_idx; eauto. Qed.
Lemma st_dec_idx p i t d : st_wf p -> st_tokens p !! i = Some t -> st_decimals p !! i = Some d -> st_dec p t = d.
Proof. intros (Hnd & _) Ht Hc. eapply beside_idx; eauto. Qed.
Lemma st_reserve_notin p t : t ∉ st_tokens p -> st_reserve p t = 0.
Proof.
  intros H. unfold st_reserve, st_kept, st_dec. rewrite !beside_notin by done. unfold in_token_units.
  destruct (_ <=? _); [apply div_zero_l|done].
Qed.
Lemma st_reserve_idx p i t d c :
  st_wf p -> st_tokens p !! i = Some t -> st_decimals p !! i = Some d -> st_c p !! i = Some c ->
  st_reserve p t = in_token_units (kept_decimals (st_kind p)) d c.
Proof.
  intros Hwf Ht Hd Hc. unfold st_reserve. now rewrite (st_kept_idx _ _ _ _ Hwf Ht Hc), (st_dec_idx _ _ _ _ Hwf Ht Hd).
Qed.
(** A token of the pool with its index, decimals and balance. *)
Lemma st_token_cases p t :
  st_wf p -> t ∉ st_tokens p \/ exists i d c, st_tokens p !! i = Some t /\ st_decimals p !! i = Some d /\ st_c p !! i = Some c.
Proof.
  intros (Hnd & Hld & Hlc & _). destruct (decide (t ∈ st_tokens p)) as [Hin|]; [|auto]. right.
  apply elem_of_list_lookup in Hin as (i & Hi). pose proof (lookup_lt_Some _ _ _ Hi) as Hl.
  destruct (lookup_lt_is_Some_2 (st_decimals p) i) as [d Hd]; [lia|].
  destruct (lookup_lt_is_Some_2 (st_c p) i) as [c Hc]; [lia|]. eauto 10.
Qed.

Lemma st_add_reserve p e s am mn f p' sh t :
  st_wf p -> st_add_liquidity p e s am mn f false = Some (p', sh) ->
  st_reserve p' t <= st_reserve p t + beside t (st_tokens p) am /\
  (st_dec p t <= kept_decimals (st_kind p) -> st_reserve p' t = st_reserve p t + beside t (st_tokens p) am).
Proof.
  intros Hwf H. pose proof (st_wf_add _ _ _ _ _ _ _ _ Hwf H) as Hwf'.
  apply st_add_inv in H as (rates & cam & c' & fee & m & s2 & Hlen & _ & _ & _ & Hcam & Hc' & Hp' & _).
  assert (Htok : st_tokens p' = st_tokens p) by now subst.
  assert (Hdec : st_decimals p' = st_decimals p) by now subst.
  assert (Hkind : st_kind p' = st_kind p) by now subst.
  assert (HcC : st_c p' = c') by now subst. clear Hp'.
  destruct (st_token_cases p t Hwf) as [Hn|(i & d & c & Ht & Hd & Hc)].
  { rewrite !st_reserve_notin, beside_notin by congruence. done. }
  apply vadd_Forall2 in Hc' as (Hl & -> & _).
  destruct (lookup_lt_is_Some_2 cam i) as [x Hx]; [rewrite <- Hl; eauto using lookup_lt_Some|].
  destruct (st_amounts_to_c_lookup _ _ _ _ _ Hcam Hx) as (d' & a & Hd' & Ha & Hto).
  rewrite Hd in Hd'; injection Hd' as <-. apply to_c_Some in Hto.
  rewrite (st_reserve_idx p i t d c) by done.
  rewrite (st_reserve_idx p' i t d (c + x)); [|done|congruence|congruence|].
  2: { rewrite HcC, lookup_zip_with, Hc. cbn. rewrite Hx. done. }
  destruct Hwf as (Hnd & _). rewrite (beside_idx _ i t am a) by done.
  rewrite Hkind, Hto. split; [apply units_add|]. intros Hle. unfold st_dec in Hle.
  rewrite (beside_idx _ i t _ d) in Hle by done. pose proof Hle as Hle2. apply N.leb_le in Hle2 as ->.
  now apply units_add_exact.
Qed.

(** ** Remove liquidity by shares *)
Lemma st_redeem_Some k S sh d c mn a l :
  st_redeem k S sh d c mn = Some (a, l) ->
  0 < S /\ c * sh / S <= c /\ l = c - c * sh / S /\ min_reserve k <= l /\
  a = in_token_units (kept_decimals k) d (c * sh / S) /\ mn <= a.
Proof.
  unfold st_redeem. intros H. inv. subst. bool_inv.
  match goal with H : from_c _ _ _ = _ |- _ => apply from_c_Some in H end. subst. split_and!; auto.
Qed.

Lemma st_redeem_all_Some k S sh ds cs mins as_ ls :
  st_redeem_all k S sh ds cs mins = Some (as_, ls) ->
  length cs = length ds /\ length mins = length ds /\ length as_ = length ds /\ length ls = length ds /\
  (forall i d c, ds !! i = Some d -> cs !! i = Some c ->
     exists mn a l, mins !! i = Some mn /\ as_ !! i = Some a /\ ls !! i = Some l /\
       st_redeem k S sh d c mn = Some (a, l)).
Proof.
  revert cs mins as_ ls; induction ds as [|d ds IH]; intros [|c cs] [|mn mins] as_ ls H;
    cbn [st_redeem_all] in H; try discriminate H.
  - inv. subst. split_and!; auto. intros [|i] ? ? Hd; discriminate Hd.
  - apply bind_Some in H as ([a l] & H1 & H). apply bind_Some in H as ([als ls'] & H2 & H). inv. subst.
    apply IH in H2 as (? & ? & ? & ? & Hall). cbn [length]. split_and!; try lia.
    intros [|i] d' c' Hd Hc; cbn in Hd, Hc.
    + injection Hd as <-. injection Hc as <-. exists mn, a, l. auto.
    + destruct (Hall i d' c' Hd Hc) as (m' & a' & l' & ? & ? & ? & ?). exists m', a', l'. auto.
Qed.

Lemma st_remove_shares_inv p s sh mins v p' out :
  st_remove_by_shares p s sh mins v = Some (p', out) ->
  exists c' m,
    length mins = length (st_tokens p) /\
    st_redeem_all (st_kind p) (st_supply p) sh (st_decimals p) (st_c p) mins = Some (out, c') /\
    sh <= st_supply p /\
    p' = st_set_supply (st_set_shares (st_set_c p c') m) (st_supply p - sh) /\
    (if v then m = st_shares p else
       exists prev, st_shares p !! s = Some prev /\ sh <= prev /\
         shares_sum m + sh = shares_sum (st_shares p) /\
         m !! s = Some (prev - sh) /\ (forall h, h <> s -> m !! h = st_shares p !! h)).
Proof.
  unfold st_remove_by_shares. intros H.
  apply bind_Some in H as ([] & Hlen & H). apply ensure_Some, Nat.eqb_eq in Hlen.
  apply bind_Some in H as (m & Hm & H). apply bind_Some in H as ([out' c'] & Hred & H).
  apply bind_Some in H as (s' & Hs' & H). apply csub_Some in Hs' as [-> Hle]. inv. subst.
  exists c', m. do 4 (split; [done|]). destruct v; inv; [done|].
  match goal with H : st_shares p !! s = Some ?x |- _ => exists x; rename x into prev; rename H into Hprev end.
  bool_inv. subst m. split; [done|]. split; [done|]. unfold st_burn.
  destruct (N.eqb_spec sh 0) as [->|Hn].
  - rewrite N.sub_0_r, N.add_0_r. auto.
  - pose proof (shares_sum_insert (st_shares p) s (prev - sh)) as Hsum.
    rewrite (shares_get_Some _ _ _ Hprev) in Hsum. rewrite lookup_insert.
    split_and!; [lia|done|]. intros h Hh. rewrite lookup_insert_ne; congruence.
Qed.

Lemma st_wf_remove_shares p s sh mins p' out :
  st_wf p -> st_remove_by_shares p s sh mins false = Some (p', out) -> st_wf p'.
Proof.
  intros (Hnd & Hld & Hlc & HcW & HsW & Hsum & Hdec & Hfee) H.
  apply st_remove_shares_inv in H as (c' & m & Hlen & Hred & Hle & -> & prev & Hprev & Hsh & Hms & _).
  apply st_redeem_all_Some in Hred as (L1 & L2 & L3 & L4 & Hall).
  unfold st_wf. st_unfold. split_and!; auto; try lia.
  apply Forall_lookup. intros i l Hl.
  destruct (lookup_lt_is_Some_2 (st_decimals p) i) as [d Hd]; [apply lookup_lt_Some in Hl; lia|].
  destruct (lookup_lt_is_Some_2 (st_c p) i) as [c Hc]; [apply lookup_lt_Some in Hl; lia|].
  destruct (Hall i d c Hd Hc) as (mn & a & l' & _ & _ & Hl' & Hr). rewrite Hl in Hl'; injection Hl' as <-.
  apply st_redeem_Some in Hr as (_ & _ & -> & _). rewrite Forall_lookup in HcW. specialize (HcW _ _ Hc).
  cbn beta in HcW. dlia.
Qed.

Lemma st_remove_shares_reserve p s sh mins p' out t :
  st_wf p -> st_remove_by_shares p s sh mins false = Some (p', out) ->
  st_reserve p' t + beside t (st_tokens p) out <= st_reserve p t.
Proof.
  intros Hwf H. pose proof (st_wf_remove_shares _ _ _ _ _ _ Hwf H) as Hwf'.
  apply st_remove_shares_inv in H as (c' & m & Hlen & Hred & Hle & Hp' & _).
  assert (Htok : st_tokens p' = st_tokens p) by now subst.
  assert (Hdec : st_decimals p' = st_decimals p) by now subst.
  assert (Hkind : st_kind p' = st_kind p) by now subst.
  assert (HcC : st_c p' = c') by now subst. clear Hp'.
  destruct (st_token_cases p t Hwf) as [Hn|(i & d & c & Ht & Hd & Hc)].
  { rewrite !st_reserve_notin, beside_notin by congruence. done. }
  apply st_redeem_all_Some in Hred as (_ & _ & _ & _ & Hall).
  destruct (Hall i d c Hd Hc) as (mn & a & l & _ & Ha & Hl & Hr).
  apply st_redeem_Some in Hr as (_ & Hrc & -> & _ & -> & _).
  rewrite (st_reserve_idx p i t d c) by done.
  rewrite (st_reserve_idx p' i t d (c - c * sh / st_supply p)); [|done|congruence|congruence|congruence].
  destruct Hwf as (Hnd & _). rewrite (beside_idx _ i t out _ Hnd Ht Ha). rewrite Hkind.
  etransitivity; [apply units_superadd|]. apply units_mono. dlia.
Qed.

(** ** Remove liquidity by tokens *)
Lemma st_remove_tokens_inv p e s am mx f v p' burn :
  st_remove_by_tokens p e s am mx f v = Some (p', burn) ->
  exists rates cam c' fee m s2,
    length am = length (st_tokens p) /\ st_amounts_to_c p am = Some cam /\
    vsub (st_c p) cam = Some c' /\ Forall (fun x => min_reserve (st_kind p) <= x) c' /\
    st_assert_rates_valid p e = Some tt /\ st_get_rates p e = Some rates /\
    compute_lp_amount_for_withdraw (st_curve p (pe_now e) rates) cam (st_c p) (st_supply p)
      (fees_new (st_fee p) f) = Some (burn, fee) /\
    burn <= st_supply p /\
    p' = st_set_supply (st_set_shares (st_set_c p c') (if v then st_shares p else m)) (st_supply p - burn + s2) /\
    s2 = fee * admin_fee_bps f / FEE_DIVISOR /\
    (if v then True else
       exists prev, st_shares p !! s = Some prev /\ burn <= prev /\ burn <= mx /\
         shares_sum m + burn = shares_sum (st_shares p) + s2 /\
         (forall h, h <> s -> shares_get (st_shares p) h <= shares_get m h) /\
         shares_get (st_shares p) s <= shares_get m s + burn) /\
    (st_supply p < W128 -> st_supply p - burn + s2 < W128).
Proof.
  unfold st_remove_by_tokens. intros H.
  apply bind_Some in H as ([] & Hlen & H). apply ensure_Some, Nat.eqb_eq in Hlen.
  apply bind_Some in H as (cam & Hcam & H). apply bind_Some in H as (c' & Hc' & H).
  apply bind_Some in H as ([] & Hmin & H). apply ensure_Some in Hmin.
  apply bind_Some in H as ([] & Hval & H). apply bind_Some in H as (rates & Hr & H).
  apply bind_Some in H as ([b fee] & Hw & H). apply bind_Some in H as (m0 & Hm0 & H).
  apply bind_Some in H as (s' & Hs' & H). apply csub_Some in Hs' as [-> Hle].
  cbv zeta in H. apply bind_Some in H as (p2 & H2 & H). inv. subst b p2.
  apply st_mint_fee_inv in H2 as (m & s2 & -> & Hm & HW2 & Hs2 & Hge & Hne).
  st_unfold.
  exists rates, cam, c', fee, m, s2.
  assert (HF : Forall (fun x => min_reserve (st_kind p) <= x) c').
  { apply Forall_forall. intros x Hx. rewrite forallb_forall in Hmin.
    apply elem_of_list_In in Hx. apply N.leb_le. now apply Hmin. }
  assert (HWs : st_supply p < W128 -> st_supply p - burn + s2 < W128) by (intros; apply HW2; lia).
  destruct v; inv.
  - subst. split_and!; auto.
  - subst. bool_inv.
    match goal with H : st_shares p !! s = Some ?x |- _ => rename x into prev; rename H into Hprev end.
    split_and!; auto. exists prev. split_and!; auto.
    + rewrite Hm. unfold st_burn. destruct (N.eqb_spec burn 0) as [->|Hn]; [lia|].
      pose proof (shares_sum_insert (st_shares p) s (prev - burn)) as Hsum.
      rewrite (shares_get_Some _ _ _ Hprev) in Hsum. lia.
    + intros h Hh. specialize (Hge h). unfold st_burn in Hge. destruct (N.eqb_spec burn 0) as [->|Hn]; [done|].
      rewrite shares_get_insert_ne in Hge; auto.
    + specialize (Hge s). unfold st_burn in Hge. rewrite (shares_get_Some _ _ _ Hprev).
      destruct (N.eqb_spec burn 0) as [->|Hn].
      * rewrite (shares_get_Some _ _ _ Hprev) in Hge. lia.
      * rewrite shares_get_insert in Hge. lia.
Qed.

Lemma st_wf_remove_tokens p e s am mx f p' burn :
  st_wf p -> st_remove_by_tokens p e s am mx f false = Some (p', burn) -> st_wf p'.
Proof.
  intros (Hnd & Hld & Hlc & HcW & HsW & Hsum & Hdec & Hfee) H.
  apply st_remove_tokens_inv in H as (rates & cam & c' & fee & m & s2 & Hlen & Hcam & Hc' & _ & _ & _ & _ & Hb & ->
    & Hs2 & (prev & _ & _ & _ & Hms & _) & HW).
  apply vsub_Forall2 in Hc' as (Hl & -> & HF).
  unfold st_wf. st_unfold. split_and!; auto; try lia.
  - rewrite zip_with_length. lia.
  - apply Forall_lookup. intros i x Hx. apply lookup_zip_with_Some in Hx as (a & b & -> & Ha & _).
    rewrite Forall_lookup in HcW. specialize (HcW _ _ Ha). cbn beta in HcW. lia.
Qed.

Lemma st_remove_tokens_reserve p e s am mx f p' burn t :
  st_wf p -> st_remove_by_tokens p e s am mx f false = Some (p', burn) ->
  st_reserve p' t + beside t (st_tokens p) am
    <= st_reserve p t + beside t (st_tokens p) am mod 10 ^ (st_dec p t - kept_decimals (st_kind p)).
Proof.
  intros Hwf H. pose proof (st_wf_remove_tokens _ _ _ _ _ _ _ _ Hwf H) as Hwf'.
  apply st_remove_tokens_inv in H as (rates & cam & c' & fee & m & s2 & Hlen & Hcam & Hc' & _ & _ & _ & _ & Hb & Hp' & _).
  assert (Htok : st_tokens p' = st_tokens p) by now subst.
  assert (Hdec : st_decimals p' = st_decimals p) by now subst.
  assert (Hkind : st_kind p' = st_kind p) by now subst.
  assert (HcC : st_c p' = c') by now subst. clear Hp'.
  destruct (st_token_cases p t Hwf) as [Hn|(i & d & c & Ht & Hd & Hc)].
  { rewrite !st_reserve_notin, beside_notin by congruence. lia. }
  apply vsub_Forall2 in Hc' as (Hl & -> & HF).
  destruct (lookup_lt_is_Some_2 cam i) as [x Hx]; [rewrite <- Hl; eauto using lookup_lt_Some|].
  destruct (st_amounts_to_c_lookup _ _ _ _ _ Hcam Hx) as (d' & a & Hd' & Ha & Hto).
  rewrite Hd in Hd'; injection Hd' as <-. apply to_c_Some in Hto.
  rewrite (st_reserve_idx p i t d c) by done.
  rewrite (st_reserve_idx p' i t d (c - x)); [|done|congruence|congruence|].
  2: { rewrite HcC, lookup_zip_with, Hc. cbn. rewrite Hx. done. }
  assert (Hxc : x <= c) by (eapply Forall2_lookup_lr in HF; eauto).
  rewrite (st_dec_idx p i t d Hwf Ht Hd).
  destruct Hwf as (Hnd & _). rewrite (beside_idx _ i t am a) in * by done.
  rewrite Hkind. apply units_sub; auto.
Qed.

(** ** Swap *)
Lemma st_rates_length p e rates : st_get_rates p e = Some rates -> length rates = length (st_tokens p).
Proof.
  unfold st_get_rates. destruct (st_kind p); intros H; [inv; subst; apply map_length| |]; now apply mapM__length in H.
Qed.

Lemma st_distribute_inv p e ex rid bps tid x v p' :
  st_distribute_admin_fee p e ex rid bps tid x v = Some p' ->
  exists rates dep sh fee c m,
    st_get_rates p e = Some rates /\
    dep = <[tid := x]> (repeat 0 (length (st_c p))) /\
    compute_lp_amount_for_deposit (st_curve p (pe_now e) rates) dep (st_c p) (st_supply p) fees_zero = Some (sh, fee) /\
    st_c p !! tid = Some c /\ c + x < W128 /\
    p' = st_set_supply (st_set_shares (st_set_c p (<[tid := c + x]> (st_c p))) (if v then st_shares p else m))
           (st_supply p + sh) /\
    shares_sum m = shares_sum (st_shares p) + sh /\
    (st_supply p < W128 -> st_supply p + sh < W128) /\
    (forall h, shares_get (st_shares p) h <= shares_get m h) /\
    (forall h, h <> ex -> h <> rid -> m !! h = st_shares p !! h).
Proof.
  unfold st_distribute_admin_fee, vget. intros H.
  apply bind_Some in H as (rates & Hr & H). apply bind_Some in H as (dep & Hdep & H).
  apply bind_Some in H as ([sh fee] & Hlp & H). apply bind_Some in H as (c & Hc & H).
  apply bind_Some in H as (c2 & Hc2 & H). apply bind_Some in H as (c' & Hc' & H).
  apply bind_Some in H as (rs & Hrs & H). apply bind_Some in H as (p1 & H1 & H).
  apply bind_Some in H as (rest & Hrest & H2).
  apply vset_Some in Hdep as [-> _]. apply cadd_Some in Hc2 as [-> HcW]. apply vset_Some in Hc' as [-> _].
  apply csub_Some in Hrest as [-> Hle].
  destruct (st_mint2_inv _ _ _ _ _ _ _ _ H1 H2) as [-> HW]. st_unfold.
  replace (rs + (sh - rs)) with sh in * by lia.
  eexists rates, _, sh, fee, c, (credit (credit (st_shares p) rid rs) ex (sh - rs)).
  split_and!; auto.
  - rewrite !shares_sum_credit. lia.
  - intros h. rewrite !shares_get_credit. lia.
  - intros h H1' H2'. rewrite !lookup_credit_ne; auto.
Qed.

Lemma st_swap_inv p e ti a to mn f v p' out :
  st_swap p e ti a to mn f v = Some (p', out) ->
  exists ix iy rates r x y di do_ cin m s2 adm,
    ti <> to /\ ix <> iy /\ st_tokens p !! ix = Some ti /\ st_tokens p !! iy = Some to /\
    st_assert_rates_valid p e = Some tt /\ st_get_rates p e = Some rates /\
    st_decimals p !! ix = Some di /\ st_decimals p !! iy = Some do_ /\
    st_c p !! ix = Some x /\ st_c p !! iy = Some y /\
    to_c (st_kind p) di a = Some cin /\
    swap_to (st_curve p (pe_now e) rates) ix cin iy (st_c p) (fees_new (st_fee p) f) = Some r /\
    out = in_token_units (kept_decimals (st_kind p)) do_ (sr_swapped r) /\ mn <= out /\
    min_reserve (st_kind p) <= sr_new_destination r /\
    adm = sr_admin_fee r /\ sr_new_destination r + adm < W128 /\ sr_new_source r < W128 /\
    p' = st_set_supply (st_set_shares (st_set_c p
           (<[iy := sr_new_destination r + adm]> (<[ix := sr_new_source r]> (st_c p))))
           (if v then st_shares p else m)) (st_supply p + s2) /\
    shares_sum m = shares_sum (st_shares p) + s2 /\
    (st_supply p < W128 -> st_supply p + s2 < W128) /\
    (forall h, shares_get (st_shares p) h <= shares_get m h) /\
    (forall h, h <> exchange_id f -> (forall rid rfee, referral_info f = Some (rid, rfee) -> h <> rid) ->
       m !! h = st_shares p !! h) /\
    (s2 = 0 \/ exists dep fee,
       adm = sr_admin_fee r /\
       dep = <[iy := adm]> (repeat 0 (length (st_c p))) /\
       compute_lp_amount_for_deposit (st_curve p (pe_now e) rates) dep
         (<[iy := sr_new_destination r]> (<[ix := sr_new_source r]> (st_c p))) (st_supply p) fees_zero = Some (s2, fee)).
Proof.
  unfold st_swap. intros H.
  apply bind_Some in H as ([] & Hne & H). apply ensure_Some, negb_true_iff, String.eqb_neq in Hne.
  apply bind_Some in H as (ix & Hix & H). apply position_lookup in Hix.
  apply bind_Some in H as (iy & Hiy & H). apply position_lookup in Hiy.
  apply bind_Some in H as ([] & Hval & H). apply bind_Some in H as (rates & Hr & H).
  apply bind_Some in H as (r & Hsw & H). apply bind_Some in H as (amt & Hamt & H).
  apply bind_Some in H as ([] & Hmn & H). apply ensure_Some, N.leb_le in Hmn.
  apply bind_Some in H as ([] & _ & H). apply bind_Some in H as (c1 & Hc1 & H).
  apply bind_Some in H as (c2 & Hc2 & H). cbv zeta in H. apply bind_Some in H as ([] & Hres & H).
  apply bind_Some in H as (p2 & H2 & H). inv. subst p2 amt.
  unfold assert_min_reserve in Hres. apply ensure_Some, N.leb_le in Hres.
  apply vset_Some in Hc1 as [-> L1]. apply vset_Some in Hc2 as [-> L2].
  unfold st_internal_get_return in Hsw. apply bind_Some in Hsw as (cin & Hcin & Hsw).
  unfold st_to_c, vget in Hcin. apply bind_Some in Hcin as (di & Hdi & Hcin).
  unfold st_from_c, vget in Hamt. apply bind_Some in Hamt as (do_ & Hdo & Hamt). apply from_c_Some in Hamt.
  pose proof (swap_to_conserves _ _ _ _ _ _ _ Hsw) as (x & y & Hx & Hy & _ & _ & HW1 & HW2).
  assert (Hxy : ix <> iy) by (intros ->; congruence).
  assert (Hres' : min_reserve (st_kind p) <= sr_new_destination r) by exact Hres. clear Hres.
  assert (Hbps0 : admin_fee_bps f = 0 -> sr_admin_fee r = 0).
  { intros E. apply swap_to_inv in Hsw as (ri & ro & x' & y' & rated & xr & yr & yn & trade & admin & _ & _ & _ & _ & _
    & _ & _ & _ & _ & _ & _ & _ & _ & _ & _ & Hadmin & _ & _ & _ & _ & _ & -> & _).
    cbn [fees_new fe_admin] in Hadmin. rewrite E, N.mul_0_r, div_zero_l in Hadmin. subst admin.
    rewrite N.mul_0_l. apply div_zero_l. }
  assert (Hcase : sr_admin_fee r = 0 /\ p' = st_set_c p (<[iy := sr_new_destination r]> (<[ix := sr_new_source r]> (st_c p))) \/
    exists rid bps,
      (rid = exchange_id f \/ exists rfee, referral_info f = Some (rid, rfee)) /\
      st_distribute_admin_fee (st_set_c p (<[iy := sr_new_destination r]> (<[ix := sr_new_source r]> (st_c p))))
        e (exchange_id f) rid bps iy (sr_admin_fee r) v = Some p').
  { destruct (N.ltb_spec 0 (admin_fee_bps f)) as [Hb|Hb]; [|injection H2 as <-; left; split; [apply Hbps0; lia|done]].
    destruct (N.ltb_spec 0 (sr_admin_fee r)) as [Ha|Ha]; cbn [andb] in H2; [|injection H2 as <-; left; split; [lia|done]]. right. destruct (referral_info f) as [[rid rfee]|].
    - case_bool_decide; eauto 6.
    - eauto 6. }
  clear H2. destruct Hcase as [[Ha0 ->]|(rid & bps & Hrid & Hd)].
  - eexists ix, iy, rates, r, x, y, di, do_, cin, (st_shares p), 0, 0. rewrite !N.add_0_r.
    split_and!; auto.
    + st_unfold. now destruct v.
  - apply st_distribute_inv in Hd as (rates2 & dep & sh & fee & c & m & Hr2 & Hdep & Hlp & Hc & HcW & Hp' & Hm & HW & Hge & Hoth).
    st_unfold. unfold st_get_rates in Hr2. cbn [st_kind st_tokens] in Hr2. fold (st_get_rates p e) in Hr2.
    change (match st_kind p with KStable => Some (map (λ _ : string, PRECISION) (st_tokens p)) | _ => mapM_ (pe_rate e) (st_tokens p) end)
      with (st_get_rates p e) in Hr2. rewrite Hr in Hr2. injection Hr2 as <-.
    rewrite list_lookup_insert in Hc by (rewrite insert_length in L2; rewrite insert_length; done).
    injection Hc as <-.
    eexists ix, iy, rates, r, x, y, di, do_, cin, m, sh, (sr_admin_fee r).
    split_and!; auto.
    + rewrite Hp'. rewrite list_insert_insert. done.
    + intros h Hh Hr'. apply Hoth; auto. destruct Hrid as [->|(rfee & Hrf)]; eauto.
    + right. exists dep, fee. rewrite !insert_length in Hdep. split_and!; auto.
Qed.

Lemma st_wf_swap p e ti a to mn f p' out : st_wf p -> st_swap p e ti a to mn f false = Some (p', out) -> st_wf p'.
Proof.
  intros (Hnd & Hld & Hlc & HcW & HsW & Hsum & Hdec & Hfee) H.
  apply st_swap_inv in H as (ix & iy & rates & r & x & y & di & do_ & cin & m & s2 & adm & _ & _ & _ & _ & _ & _ & _ & _
    & _ & _ & _ & _ & _ & _ & _ & _ & HW1 & HW2 & -> & Hm & HW & _).
  unfold st_wf. st_unfold. rewrite !insert_length. split_and!; auto.
  - apply Forall_insert; [|done]. apply Forall_insert; done.
  - lia.
Qed.

Lemma st_swap_reserve p e ti a to mn f p' out :
  st_wf p -> st_swap p e ti a to mn f false = Some (p', out) ->
  st_reserve p' ti <= st_reserve p ti + a /\ st_reserve p' to + out <= st_reserve p to /\
  (forall t, t <> ti -> t <> to -> st_reserve p' t = st_reserve p t).
Proof.
  intros Hwf H. pose proof (st_wf_swap _ _ _ _ _ _ _ _ _ Hwf H) as Hwf'.
  apply st_swap_inv in H as (ix & iy & rates & r & x & y & di & do_ & cin & m & s2 & adm & Hne & Hixy & Hti & Hto & _ & _ & Hdi & Hdo
    & Hx & Hy & Hcin & Hsw & -> & _ & _ & Hadm & HW1 & HW2 & Hp' & _).
  assert (Htok : st_tokens p' = st_tokens p) by now subst.
  assert (Hdec : st_decimals p' = st_decimals p) by now subst.
  assert (Hkind : st_kind p' = st_kind p) by now subst.
  assert (HcC : st_c p' = <[iy := sr_new_destination r + adm]> (<[ix := sr_new_source r]> (st_c p))) by now subst. clear Hp'.
  apply swap_to_conserves in Hsw as (x' & y' & Hx' & Hy' & Hin & Hout & _).
  rewrite Hx in Hx'; injection Hx' as <-. rewrite Hy in Hy'; injection Hy' as <-.
  pose proof (lookup_lt_Some _ _ _ Hx) as Lx. pose proof (lookup_lt_Some _ _ _ Hy) as Ly.
  apply to_c_Some in Hcin.
  split; [|split].
  - rewrite (st_reserve_idx p ix ti di x) by done.
    rewrite (st_reserve_idx p' ix ti di (sr_new_source r)); [|done|congruence|congruence|].
    2: { rewrite HcC, list_lookup_insert_ne, list_lookup_insert; auto. }
    rewrite Hkind. etransitivity; [apply units_mono, Hin|]. rewrite Hcin. apply units_add.
  - rewrite (st_reserve_idx p iy to do_ y) by done.
    rewrite (st_reserve_idx p' iy to do_ (sr_new_destination r + adm)); [|done|congruence|congruence|].
    2: { rewrite HcC, list_lookup_insert; [done|]. now rewrite insert_length. }
    rewrite Hkind. etransitivity; [apply units_superadd|]. apply units_mono. lia.
  - intros t H1 H2. destruct (st_token_cases p t Hwf) as [Hn|(i & d & c & Ht & Hd & Hc)].
    { rewrite !st_reserve_notin by congruence. done. }
    rewrite (st_reserve_idx p i t d c) by done.
    rewrite (st_reserve_idx p' i t d c); [now rewrite Hkind|done|congruence|congruence|].
    rewrite HcC, !list_lookup_insert_ne; [done| |]; intros ->; congruence.
Qed.
