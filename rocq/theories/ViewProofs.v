(** * Proofs about view methods: a view follows the execution, only the map of shares stays behind *)
From Verif Require Import Base BaseLemmas SimplePool SimplePoolProofs SpecSimple SimplePoolInv StableMath StablePool
  SpecStable StablePoolProofs StablePoolInv Rates Echo Twap Account Pool Exchange SpecExchange AccountProofs PoolFacts
  ExchangeProofs ExchangeInv ExchangeEffect ExchangeFrames Views.

(** Go through one step of the execution in [H] and of the view in the goal. *)
Ltac both H x Hx := bnd H x Hx; rewrite Hx; cbn [mbind option_bind].
Ltac bothg H := let u := fresh "u" in let G := fresh "G" in
  apply bind_Some in H as (u & G & H); destruct u; rewrite G; cbn [mbind option_bind].

(** everybody in [m] is in [n] *)
Definition within (m n : gmap AccountId N) : Prop := forall a, is_Some (m !! a) -> is_Some (n !! a).
Lemma within_refl m : within m m.
Proof. now intros a. Qed.
Lemma within_trans m n k : within m n -> within n k -> within m k.
Proof. intros H K a Ha. auto. Qed.
Lemma within_insert m a x : within m (<[a := x]> m).
Proof. intros b Hb. destruct (decide (a = b)) as [->|Hn]; [rewrite lookup_insert|rewrite lookup_insert_ne by done]; auto. Qed.
(** The view uses the same fee, and the referral of the execution or none. *)
Definition fees_like (f f' : AdminFees) : Prop :=
  admin_fee_bps f' = admin_fee_bps f /\ (referral_info f' = None \/ referral_info f' = referral_info f).
(** [b] gets no part of the fees. *)
Definition no_fees_for (b : AccountId) (f : AdminFees) : Prop :=
  b <> exchange_id f /\ forall x, referral_info f <> Some (b, x).

Lemma add_to_collection_other m a x m' b : add_to_collection m a x = Some m' -> b <> a -> shares_get m' b = shares_get m b.
Proof. unfold add_to_collection. intros H Hb. bnd H v Hv. injection H as <-. unfold shares_get. now rewrite lookup_insert_ne by done. Qed.
Lemma add_to_collection_same m a x m' : add_to_collection m a x = Some m' -> shares_get m' a = shares_get m a + x.
Proof.
  unfold add_to_collection. intros H. bnd H v Hv. injection H as <-. apply cadd_Some in Hv as [-> _].
  unfold shares_get at 1. now rewrite lookup_insert.
Qed.
Lemma add_to_collection_within m a x m' : add_to_collection m a x = Some m' -> within m m'.
Proof. unfold add_to_collection. intros H. bnd H v Hv. injection H as <-. apply within_insert. Qed.

(** ** Simple pools *)
Lemma sp_supply_same p : sp_set_supply p (sp_supply p) = p.
Proof. now destruct p. Qed.
Lemma sp_mint_inv p a s p' :
  sp_mint_shares p a s false = Some p' ->
  (s = 0 \/ sp_supply p + s < W128) /\ within (sp_shares p) (sp_shares p') /\
  p' = sp_set_supply (sp_set_shares p (sp_shares p')) (sp_supply p + s) /\
  shares_get (sp_shares p') a = shares_get (sp_shares p) a + s /\
  (forall b, b <> a -> shares_get (sp_shares p') b = shares_get (sp_shares p) b).
Proof.
  unfold sp_mint_shares. intros H. destruct (N.eqb_spec s 0) as [->|Hs].
  - injection H as <-. rewrite !N.add_0_r. split; [now left|]. split; [apply within_refl|]. split; [now destruct p|]. auto.
  - bnd H s' Hs'. apply cadd_Some in Hs' as [-> Hlt]. cbv zeta in H. bnd H m Hm. injection H as <-.
    split; [now right|]. cbn [sp_shares sp_set_shares sp_set_supply] in *.
    split; [eapply add_to_collection_within; eauto|]. split; [reflexivity|]. split; [eapply add_to_collection_same; eauto|].
    intros b Hb. eapply add_to_collection_other; eauto.
Qed.
Lemma sp_mint_view p a s :
  s = 0 \/ sp_supply p + s < W128 -> sp_mint_shares p a s true = Some (sp_set_supply p (sp_supply p + s)).
Proof.
  intros H. unfold sp_mint_shares. destruct (N.eqb_spec s 0) as [->|Hs]; [now rewrite N.add_0_r, sp_supply_same|].
  rewrite cadd_intro by lia. done.
Qed.

Lemma sp_update_sim p ii ai io ao f f' m p' :
  within m (sp_shares p) -> fees_like f f' ->
  sp_update_pool_and_distribute_fee p ii ai io ao f false = Some p' ->
  sp_update_pool_and_distribute_fee (sp_set_shares p m) ii ai io ao f' true = Some (sp_set_shares p' m) /\
  within (sp_shares p) (sp_shares p') /\
  (forall b, no_fees_for b f -> shares_get (sp_shares p') b = shares_get (sp_shares p) b).
Proof.
  intros Hm [Hb Hr] H. unfold sp_update_pool_and_distribute_fee in *. cbn [sp_amounts sp_set_shares].
  both H in0 Hin0. both H out0 Hout0. both H k0 Hk0. both H pi Hpi. both H in1 Hin1. both H a1 Ha1. both H o Ho.
  both H out1 Hout1. both H a2 Ha2. cbv zeta in H |- *. both H in2 Hin2. both H out2 Hout2. both H k1 Hk1. both H ni Hni.
  bothg H. cbn [sp_supply sp_set_amounts sp_set_shares] in *. both H num Hnum. rewrite Hb.
  destruct ((0 <? admin_fee_bps f) && (0 <? num)).
  2: { injection H as <-. cbn [sp_set_amounts sp_set_shares sp_tokens sp_amounts sp_fee sp_shares sp_supply].
       split; [reflexivity|]. split; [apply within_refl|]. auto. }
  both H d Hd. both H den Hden. both H q Hq. both H sh Hsh. bnd H rs Hrs. bnd H p2 Hp2. bnd H rest Hrest.
  apply csub_Some in Hrest as [-> Hle]. set (p1 := sp_set_amounts p a2) in *.
  assert (Hs1 : sp_shares p1 = sp_shares p) by reflexivity.
  (* the execution *)
  apply sp_mint_inv in H as (HA & WA & EA & SA & OA).
  assert ((rs = 0 \/ sp_supply p1 + rs < W128) /\ within (sp_shares p1) (sp_shares p2) /\
          p2 = sp_set_supply (sp_set_shares p1 (sp_shares p2)) (sp_supply p1 + rs) /\
          (forall b, no_fees_for b f -> shares_get (sp_shares p2) b = shares_get (sp_shares p1) b)) as (HB & WB & EB & OB).
  { destruct (N.ltb_spec 0 rs) as [Hrs0|Hrs0].
    - destruct (referral_info f) as [[rid rfee]|] eqn:Ef; [|discriminate]. apply sp_mint_inv in Hp2 as (? & ? & ? & ? & Ho2).
      split; [assumption|]. split; [assumption|]. split; [assumption|]. intros b [_ Hb2]. apply Ho2. intros ->. now apply (Hb2 rfee).
    - injection Hp2 as <-. assert (rs = 0) as -> by lia. split; [now left|]. split; [apply within_refl|]. rewrite N.add_0_r. now destruct p1. }
  assert (Es2 : sp_supply p2 = sp_supply p1 + rs) by (rewrite EB; reflexivity).
  assert (Ep' : sp_set_shares p' m = sp_set_supply (sp_set_shares p1 m) (sp_supply p1 + sh)).
  { rewrite EA, Es2. replace (sp_supply p1 + rs + (sh - rs)) with (sp_supply p1 + sh) by lia. rewrite EB. reflexivity. }
  split; [|split].
  2: { rewrite <- Hs1. eapply within_trans; eauto. }
  2: { intros b Hbf. rewrite <- Hs1, <- (OB b Hbf). apply OA. apply Hbf. }
  (* the view *)
  assert (Hv : exists rs', sp_referral_share (sp_set_amounts (sp_set_shares p m) a2) f' sh = Some rs' /\
                (rs' = 0 \/ rs' = rs) /\ (0 < rs' -> exists x, referral_info f' = Some x)).
  { unfold sp_referral_share in *. destruct Hr as [->| ->]; [eexists; split; [reflexivity|]; split; [now left|lia]|].
    destruct (referral_info f) as [[rid rfee]|]; [|eexists; split; [reflexivity|]; split; [now left|lia]].
    unfold sp_share_has_registered in *. cbn [sp_shares sp_set_amounts sp_set_shares p1] in *.
    destruct (bool_decide (is_Some (m !! rid))) eqn:Em.
    - apply bool_decide_eq_true in Em. apply Hm in Em.
      rewrite (bool_decide_eq_true_2 _ Em) in Hrs. eexists. split; [exact Hrs|]. split; [now right|eauto].
    - eexists. split; [reflexivity|]. split; [now left|lia]. }
  destruct Hv as (rs' & -> & Hrs' & Hx). cbn [mbind option_bind].
  change (sp_set_amounts (sp_set_shares p m) a2) with (sp_set_shares p1 m).
  assert (Hok : rs' = 0 \/ sp_supply (sp_set_shares p1 m) + rs' < W128).
  { destruct Hrs' as [->| ->]; [now left|]. cbn [sp_supply sp_set_shares]. exact HB. }
  assert (Hv2 : (if 0 <? rs' then match referral_info f' with
                 | Some (rid, _) => sp_mint_shares (sp_set_shares p1 m) rid rs' true | None => None end
                 else Some (sp_set_shares p1 m)) = Some (sp_set_supply (sp_set_shares p1 m) (sp_supply p1 + rs'))).
  { destruct (N.ltb_spec 0 rs') as [H0|H0].
    - destruct (Hx H0) as [[rid rf] ->]. rewrite sp_mint_view by exact Hok. reflexivity.
    - assert (rs' = 0) as -> by lia. rewrite N.add_0_r. reflexivity. }
  rewrite Hv2. cbn [mbind option_bind]. rewrite csub_intro by (destruct Hrs' as [->| ->]; lia). cbn [mbind option_bind].
  rewrite sp_mint_view; [|cbn [sp_supply sp_set_supply sp_set_shares]; destruct Hrs' as [->| ->]; lia].
  rewrite Ep'. cbn [sp_supply sp_set_supply sp_set_shares]. f_equal. unfold sp_set_supply. cbn [sp_tokens sp_amounts sp_fee sp_shares].
  f_equal. destruct Hrs' as [->| ->]; lia.
Qed.
Lemma sp_swap_sim p ti a to mn mn' f f' m p' o :
  within m (sp_shares p) -> fees_like f f' -> mn' <= mn -> sp_swap p ti a to mn f false = Some (p', o) ->
  sp_swap (sp_set_shares p m) ti a to mn' f' true = Some (sp_set_shares p' m, o) /\ within (sp_shares p) (sp_shares p') /\
  (forall b, no_fees_for b f -> shares_get (sp_shares p') b = shares_get (sp_shares p) b).
Proof.
  intros Hm Hf Hmn H. unfold sp_swap in *. unfold sp_token_index, sp_internal_get_return in *. cbn [sp_tokens sp_amounts sp_fee sp_set_shares].
  bothg H. both H ii Hii. both H io Hio. both H out Hout. grd H. apply N.leb_le in G0. rewrite ensure_intro by (apply N.leb_le; lia).
  cbn [mbind option_bind]. bnd H p2 Hp2. injection H as <- <-.
  eapply sp_update_sim in Hp2 as (-> & ? & ?); eauto. 
Qed.
Lemma sp_swap_by_output_sim p ti b to mx mx' f f' m p' i :
  within m (sp_shares p) -> fees_like f f' -> mx' = None \/ mx' = mx -> sp_swap_by_output p ti b to mx f false = Some (p', i) ->
  sp_swap_by_output (sp_set_shares p m) ti b to mx' f' true = Some (sp_set_shares p' m, i) /\ within (sp_shares p) (sp_shares p') /\
  (forall b, no_fees_for b f -> shares_get (sp_shares p') b = shares_get (sp_shares p) b).
Proof.
  intros Hm Hf Hmx H. unfold sp_swap_by_output in *. unfold sp_token_index, sp_internal_get_return_by_output in *. cbn [sp_tokens sp_amounts sp_fee sp_set_shares].
  bothg H. both H ii Hii. both H io Hio. both H out Hout. grd H. rewrite ensure_intro by (destruct Hmx as [->| ->]; done).
  cbn [mbind option_bind]. bnd H p2 Hp2. injection H as <- <-.
  eapply sp_update_sim in Hp2 as (-> & ? & ?); eauto.
Qed.
Lemma sp_add_sim p s s' am m p' taken sh :
  within m (sp_shares p) -> sp_add_liquidity p s am false = Some (p', taken, sh) ->
  sp_add_liquidity (sp_set_shares p m) s' am true = Some (sp_set_shares p' m, taken, sh) /\ within (sp_shares p) (sp_shares p') /\
  shares_get (sp_shares p') s = shares_get (sp_shares p) s + sh.
Proof.
  intros Hm H. unfold sp_add_liquidity in *. cbn [sp_amounts sp_supply sp_set_shares]. bothg H.
  both H x Hx. destruct x as [[rs tk] shr]. bnd H p2 Hp2. bothg H. injection H as <- <- <-.
  apply sp_mint_inv in Hp2 as (HA & WA & EA & SA & _). 
  rewrite sp_mint_view by exact HA. cbn [mbind option_bind].
  split; [|split; [exact WA|exact SA]]. rewrite EA. reflexivity.
Qed.

(** ** Stable, rated and degen pools *)
Lemma st_mint_inv p a s p' :
  st_mint_shares p a s false = Some p' ->
  (s = 0 \/ st_supply p + s < W128) /\ within (st_shares p) (st_shares p') /\
  p' = st_set_supply (st_set_shares p (st_shares p')) (st_supply p + s) /\
  shares_get (st_shares p') a = shares_get (st_shares p) a + s /\
  (forall b, b <> a -> shares_get (st_shares p') b = shares_get (st_shares p) b).
Proof.
  unfold st_mint_shares. intros H. destruct (N.eqb_spec s 0) as [->|Hs].
  - injection H as <-. rewrite !N.add_0_r. split; [now left|]. split; [apply within_refl|]. split; [now destruct p|]. auto.
  - bnd H s' Hs'. apply cadd_Some in Hs' as [-> Hlt]. cbv zeta in H. bnd H m Hm. injection H as <-.
    split; [now right|]. cbn [st_shares st_set_shares st_set_supply] in *.
    split; [eapply add_to_collection_within; eauto|]. split; [reflexivity|]. split; [eapply add_to_collection_same; eauto|].
    intros b Hb. eapply add_to_collection_other; eauto.
Qed.
Lemma st_supply_same p : st_set_supply p (st_supply p) = p.
Proof. now destruct p. Qed.
Lemma st_mint_view p a s :
  s = 0 \/ st_supply p + s < W128 -> st_mint_shares p a s true = Some (st_set_supply p (st_supply p + s)).
Proof.
  intros H. unfold st_mint_shares. destruct (N.eqb_spec s 0) as [->|Hs]; [now rewrite N.add_0_r, st_supply_same|].
  rewrite cadd_intro by lia. done.
Qed.
(** Minting [rs] to one and [sh - rs] to another account, against a view that mints [rs'] and [sh - rs']. *)
Lemma st_mint_two_sim p a x rs sh p1 p2 m a' x' rs' :
  rs <= sh -> st_mint_shares p a rs false = Some p1 -> st_mint_shares p1 x (sh - rs) false = Some p2 -> rs' = 0 \/ rs' = rs ->
  (q ← st_mint_shares (st_set_shares p m) a' rs' true; st_mint_shares q x' (sh - rs') true) = Some (st_set_shares p2 m) /\
  within (st_shares p) (st_shares p2) /\
  (forall b, b <> a \/ rs = 0 -> b <> x -> shares_get (st_shares p2) b = shares_get (st_shares p) b).
Proof.
  intros Hle H1 H2 Hr. apply st_mint_inv in H1 as (A1 & W1 & E1 & S1 & O1). apply st_mint_inv in H2 as (A2 & W2 & E2 & S2 & O2).
  assert (Es1 : st_supply p1 = st_supply p + rs) by (rewrite E1; reflexivity).
  split; [|split; [eapply within_trans; eauto|]].
  2: { intros b [Hb| ->] Hx.
       - rewrite O2, O1 by done. reflexivity.
       - rewrite O2 by done. destruct (decide (b = a)) as [->|Hn]; [rewrite S1; lia|now rewrite O1]. }
  rewrite st_mint_view by (cbn [st_supply st_set_shares]; destruct Hr as [->| ->]; [now left|exact A1]). cbn [mbind option_bind].
  rewrite st_mint_view; [|cbn [st_supply st_set_supply st_set_shares]; destruct Hr as [->| ->]; lia].
  assert (Ep : st_set_shares p2 m = st_set_supply (st_set_shares p m) (st_supply p + sh)).
  { rewrite E2, Es1. replace (st_supply p + rs + (sh - rs)) with (st_supply p + sh) by lia. rewrite E1. reflexivity. }
  rewrite Ep. f_equal. unfold st_set_supply. cbn [st_kind st_tokens st_decimals st_c st_fee st_shares st_supply st_init_amp st_target_amp
    st_init_time st_stop_time st_set_shares]. f_equal. destruct Hr as [->| ->]; lia.
Qed.
Lemma st_mint_fee_part_sim p fee f f' m p' :
  within m (st_shares p) -> fees_like f f' -> st_mint_fee_part p fee f false = Some p' ->
  st_mint_fee_part (st_set_shares p m) fee f' true = Some (st_set_shares p' m) /\ within (st_shares p) (st_shares p') /\
  (forall b, no_fees_for b f -> shares_get (st_shares p') b = shares_get (st_shares p) b).
Proof.
  intros Hm [Hb Hr] H. unfold st_mint_fee_part in *. rewrite Hb. destruct (0 <? fee).
  2: { injection H as <-. split; [reflexivity|]. split; [apply within_refl|]. auto. }
  both H sh Hsh. bnd H q Hq. destruct q as [rs0 ref]. cbv zeta in H. bnd H p1 Hp1. bnd H rest Hrest. apply csub_Some in Hrest as [-> Hle].
  set (rs := if (0 <? rs0) && negb (bool_decide (is_Some (st_shares p !! ref))) then 0 else rs0) in *.
  assert (Hv : exists rs0' ref', calc_referral_share f' sh = Some (rs0', ref') /\
    ((if (0 <? rs0') && negb (bool_decide (is_Some (m !! ref'))) then 0 else rs0') = 0 \/
     (if (0 <? rs0') && negb (bool_decide (is_Some (m !! ref'))) then 0 else rs0') = rs)).
  { unfold calc_referral_share in *. destruct Hr as [->|Er]; [do 2 eexists; split; [reflexivity|]; now left|]. rewrite Er.
    destruct (referral_info f) as [[rid rfee]|]; [|injection Hq as <- <-; do 2 eexists; split; [reflexivity|]; now left].
    bnd Hq s0 Hs0. injection Hq as <- <-. rewrite Hs0. cbn [mbind option_bind]. do 2 eexists. split; [reflexivity|]. unfold rs.
    destruct (0 <? s0); cbn [andb]; [|now right]. destruct (bool_decide (is_Some (m !! rid))) eqn:Em; cbn [negb]; [|now left].
    apply bool_decide_eq_true in Em. apply Hm in Em. rewrite (bool_decide_eq_true_2 _ Em). now right. }
  destruct Hv as (rs0' & ref' & -> & Hrs'). cbn [mbind option_bind]. cbn [st_shares st_set_shares]. cbv zeta.
  set (rs' := if (0 <? rs0') && negb (bool_decide (is_Some (m !! ref'))) then 0 else rs0') in *.
  destruct (st_mint_two_sim p ref (exchange_id f) rs sh p1 p' m ref' (exchange_id f') rs' Hle Hp1 H Hrs') as (K & ? & O).
  split; [|split; [assumption|]].
  - rewrite csub_intro by (destruct Hrs' as [->| ->]; lia). cbn [mbind option_bind] in *. exact K.
  - intros b [Hb1 Hb2]. apply O; [|exact Hb1]. unfold calc_referral_share in Hq. destruct (referral_info f) as [[rid rfee]|].
    + bnd Hq s0 Hs0. injection Hq as <- <-. left. intros ->. now apply (Hb2 rfee).
    + injection Hq as <- <-. right. unfold rs. cbn. done.
Qed.
Lemma st_distribute_sim p e ex rf bps tid ca m p' ex' rf' bps' :
  within m (st_shares p) -> bps' = 0 \/ bps' = bps -> st_distribute_admin_fee p e ex rf bps tid ca false = Some p' ->
  st_distribute_admin_fee (st_set_shares p m) e ex' rf' bps' tid ca true = Some (st_set_shares p' m) /\ within (st_shares p) (st_shares p') /\
  (forall b, b <> ex -> b <> rf \/ bps = 0 -> shares_get (st_shares p') b = shares_get (st_shares p) b).
Proof.
  intros Hm Hbps H. unfold st_distribute_admin_fee in *. unfold st_get_rates, st_curve in *.
  cbn [st_kind st_tokens st_decimals st_c st_fee st_supply st_init_amp st_target_amp st_init_time st_stop_time st_set_shares].
  both H rates Hrates. both H dep Hdep. both H q Hq. destruct q as [sh fee]. both H old Hold. both H v Hv. both H c' Hc'.
  bnd H rs Hrs. bnd H p1 Hp1. bnd H rest Hrest. apply csub_Some in Hrest as [-> Hle].
  assert (exists rs', (if 0 <? bps' then u128_ratio sh bps' FEE_DIVISOR else Some 0) = Some rs' /\ (rs' = 0 \/ rs' = rs)) as (rs' & -> & Hr').
  { destruct Hbps as [->| ->]; [exists 0; split; [reflexivity|now left]|]. exists rs. split; [exact Hrs|now right]. }
  cbn [mbind option_bind].
  destruct (st_mint_two_sim (st_set_c p c') rf ex rs sh p1 p' m rf' ex' rs' Hle Hp1 H Hr') as (K & ? & O).
  split; [|split; [assumption|]].
  - rewrite csub_intro by (destruct Hr' as [->| ->]; lia). cbn [mbind option_bind] in *. exact K.
  - intros b H1 H2. apply O; [|exact H1]. destruct H2 as [?| ->]; [now left|]. right. now injection Hrs as <-.
Qed.
Ltac st_proj := cbn [st_kind st_tokens st_decimals st_c st_fee st_supply st_shares st_init_amp st_target_amp st_init_time st_stop_time
  st_set_shares st_set_c st_set_supply].
Lemma st_swap_sim p e ti a to mn mn' f f' m p' o :
  within m (st_shares p) -> fees_like f f' -> mn' <= mn -> st_swap p e ti a to mn f false = Some (p', o) ->
  st_swap (st_set_shares p m) e ti a to mn' f' true = Some (st_set_shares p' m, o) /\ within (st_shares p) (st_shares p') /\
  (forall b, no_fees_for b f -> shares_get (st_shares p') b = shares_get (st_shares p) b).
Proof.
  intros Hm [Hb Hr] Hmn H. unfold st_swap in *.
  unfold st_token_index, st_assert_rates_valid, st_get_rates, st_internal_get_return, st_to_c, st_from_c, st_curve, assert_min_reserve, fees_new in *.
  st_proj. rewrite Hb.
  bothg H. both H ix Hix. both H iy Hiy. bothg H. both H rates Hrates. both H r Hsw. both H amt Hamt. grd H. apply N.leb_le in G1.
  rewrite (ensure_intro (mn' <=? amt)) by (apply N.leb_le; lia). cbn [mbind option_bind]. bnd H u Hu. both H c1 Hc1. both H c2 Hc2. cbv zeta in H |- *.
  revert H. st_proj. intros H. bothg H. bnd H p2 Hp2. injection H as <- <-.
  destruct ((0 <? admin_fee_bps f) && (0 <? sr_admin_fee r)).
  2: { injection Hp2 as <-. split; [reflexivity|]. split; [apply within_refl|]. auto. }
  assert (exists rf bps, st_distribute_admin_fee (st_set_c p c2) e (exchange_id f) rf bps iy (sr_admin_fee r) false = Some p2 /\
    (forall b, no_fees_for b f -> b <> rf \/ bps = 0) /\
    exists rf' bps', (bps' = 0 \/ bps' = bps) /\
     match referral_info f' with
     | Some (rid, rfee) =>
         if bool_decide (is_Some (m !! rid))
         then st_distribute_admin_fee (st_set_c (st_set_shares p m) c2) e (exchange_id f') rid rfee iy (sr_admin_fee r) true
         else st_distribute_admin_fee (st_set_c (st_set_shares p m) c2) e (exchange_id f') rid 0 iy (sr_admin_fee r) true
     | None => st_distribute_admin_fee (st_set_c (st_set_shares p m) c2) e (exchange_id f') (exchange_id f') 0 iy (sr_admin_fee r) true
     end = st_distribute_admin_fee (st_set_shares (st_set_c p c2) m) e (exchange_id f') rf' bps' iy (sr_admin_fee r) true)
    as (rf & bps & Hd & Hno & rf' & bps' & Hbps & ->).
  { destruct (referral_info f) as [[rid rfee]|] eqn:Ef.
    - destruct (bool_decide (is_Some (st_shares p !! rid))) eqn:Ei.
      + exists rid, rfee. split; [exact Hp2|]. split; [intros b [_ Hx]; left; intros ->; now apply (Hx rfee)|].
        destruct Hr as [->| ->]; [do 2 eexists; split; [now left|reflexivity]|].
        destruct (bool_decide (is_Some (m !! rid))); do 2 eexists; (split; [|reflexivity]); auto.
      + exists rid, 0. split; [exact Hp2|]. split; [now right|].
        destruct Hr as [->| ->]; [do 2 eexists; split; [now left|reflexivity]|].
        destruct (bool_decide (is_Some (m !! rid))) eqn:Em; [|do 2 eexists; split; [now left|reflexivity]].
        apply bool_decide_eq_true in Em. apply Hm in Em. apply bool_decide_eq_false in Ei. contradiction.
    - exists (exchange_id f), 0. split; [exact Hp2|]. split; [now right|]. destruct Hr as [->| ->]; do 2 eexists; (split; [now left|reflexivity]). }
  cbn [mbind option_bind].
  edestruct (st_distribute_sim (st_set_c p c2)) as (K & ? & O); [exact Hm|exact Hbps|exact Hd|].
  rewrite K. cbn [mbind option_bind]. split; [reflexivity|]. split; [assumption|].
  intros b Hbf. apply O; [apply Hbf|now apply Hno].
Qed.
Lemma st_add_sim p e s s' am mn mn' f f' m p' sh :
  within m (st_shares p) -> fees_like f f' -> mn' <= mn -> st_add_liquidity p e s am mn f false = Some (p', sh) ->
  st_add_liquidity (st_set_shares p m) e s' am mn' f' true = Some (st_set_shares p' m, sh) /\ within (st_shares p) (st_shares p') /\
  (no_fees_for s f -> shares_get (st_shares p') s = shares_get (st_shares p) s + sh).
Proof.
  intros Hm Hf Hmn H. unfold st_add_liquidity in *.
  unfold st_calc_add_liquidity, st_amounts_to_c, st_assert_rates_valid, st_get_rates, st_curve, fees_new in *. destruct Hf as [Hb Hr].
  st_proj. rewrite Hb. bothg H. both H rates Hrates. both H q Hq. destruct q as [ns fee]. grd H. apply N.leb_le in G0.
  rewrite (ensure_intro (mn' <=? ns)) by (apply N.leb_le; lia). cbn [mbind option_bind]. both H cam Hcam. both H c' Hc'.
  bnd H p1 Hp1. bnd H p2 Hp2. injection H as <- <-.
  apply st_mint_inv in Hp1 as (A1 & W1 & E1 & S1 & _).
  change (st_set_c (st_set_shares p m) c') with (st_set_shares (st_set_c p c') m).
  rewrite st_mint_view by exact A1. cbn [mbind option_bind].
  eapply (st_mint_fee_part_sim _ _ f f' m) in Hp2 as (K & W2 & O2); [|eapply within_trans; [exact Hm|exact W1]|now split].
  assert (E : st_set_supply (st_set_shares (st_set_c p c') m) (st_supply (st_set_shares (st_set_c p c') m) + ns) = st_set_shares p1 m)
    by (rewrite E1; reflexivity).
  rewrite E, K. cbn [mbind option_bind]. split; [reflexivity|]. split; [eapply within_trans; [exact W1|exact W2]|].
  intros Hs. rewrite (O2 _ Hs). exact S1.
Qed.

(** ** Any pool *)
Definition pl_with (p : Pool) (m : gmap AccountId N) : Pool :=
  match p with PSimple q => PSimple (sp_set_shares q m) | PStable q => PStable (st_set_shares q m) end.
Definition pl_shares (p : Pool) : gmap AccountId N := match p with PSimple q => sp_shares q | PStable q => st_shares q end.
Lemma pl_share_of_get p a : pl_share_of p a = shares_get (pl_shares p) a.
Proof. now destruct p. Qed.
Lemma pl_swap_sim p rs now ti a to mn mn' f f' m p' o :
  within m (pl_shares p) -> fees_like f f' -> mn' <= mn -> pl_swap p rs now ti a to mn f false = Some (p', o) ->
  pl_swap (pl_with p m) rs now ti a to mn' f' true = Some (pl_with p' m, o) /\ within (pl_shares p) (pl_shares p') /\
  (forall b, no_fees_for b f -> shares_get (pl_shares p') b = shares_get (pl_shares p) b).
Proof.
  intros Hm Hf Hmn H. destruct p as [q|q]; cbn [pl_swap pl_with] in *; bnd H x Hx; destruct x as [q' o']; injection H as <- <-.
  - eapply sp_swap_sim in Hx as (-> & ? & ?); eauto.
  - eapply st_swap_sim in Hx as (K & ? & ?); eauto. change (pl_env rs now (st_set_shares q m)) with (pl_env rs now q). rewrite K. eauto.
Qed.
Lemma pl_swap_by_output_sim p ti b to mx mx' f f' m p' i :
  within m (pl_shares p) -> fees_like f f' -> mx' = None \/ mx' = mx -> pl_swap_by_output p ti b to mx f false = Some (p', i) ->
  pl_swap_by_output (pl_with p m) ti b to mx' f' true = Some (pl_with p' m, i) /\ within (pl_shares p) (pl_shares p') /\
  (forall b, no_fees_for b f -> shares_get (pl_shares p') b = shares_get (pl_shares p) b).
Proof.
  intros Hm Hf Hmx H. destruct p as [q|q]; cbn [pl_swap_by_output pl_with] in *; [|discriminate]. bnd H x Hx. destruct x as [q' o']. injection H as <- <-.
  eapply sp_swap_by_output_sim in Hx as (-> & ? & ?); eauto.
Qed.
Lemma pl_add_sim p s s' am m p' taken sh :
  within m (pl_shares p) -> pl_add_liquidity p s am false = Some (p', taken, sh) ->
  pl_add_liquidity (pl_with p m) s' am true = Some (pl_with p' m, taken, sh) /\ within (pl_shares p) (pl_shares p') /\
  shares_get (pl_shares p') s = shares_get (pl_shares p) s + sh.
Proof.
  intros Hm H. destruct p as [q|q]; cbn [pl_add_liquidity pl_with] in *; [|discriminate]. bnd H x Hx. destruct x as [[q' tk] s1]. injection H as <- <- <-.
  eapply sp_add_sim in Hx as (-> & ? & ?); eauto.
Qed.
Lemma pl_add_stable_sim p rs now s s' am mn mn' f f' m p' sh :
  within m (pl_shares p) -> fees_like f f' -> mn' <= mn -> pl_add_stable_liquidity p rs now s am mn f false = Some (p', sh) ->
  pl_add_stable_liquidity (pl_with p m) rs now s' am mn' f' true = Some (pl_with p' m, sh) /\ within (pl_shares p) (pl_shares p') /\
  (no_fees_for s f -> shares_get (pl_shares p') s = shares_get (pl_shares p) s + sh).
Proof.
  intros Hm Hf Hmn H. destruct p as [q|q]; cbn [pl_add_stable_liquidity pl_with] in *; [discriminate|]. bnd H x Hx. destruct x as [q' s1]. injection H as <- <-.
  eapply st_add_sim in Hx as (K & ? & ?); eauto. change (pl_env rs now (st_set_shares q m)) with (pl_env rs now q). rewrite K. eauto.
Qed.

(** ** Amounts fit u128 *)
Lemma from_c_small k d c x : c < W128 -> from_c k d c = Some x -> x < W128.
Proof.
  unfold from_c. intros Hc H. destruct (d <=? target_decimal k).
  - bnd H f Hf. apply cdiv_Some in H as [-> Hf0]. eapply N.le_lt_trans; [|exact Hc]. apply N.div_le_upper_bound; nia.
  - bnd H f Hf. now apply cmul_Some in H as [-> ?].
Qed.
Lemma st_swap_small p e ti a to mn f v p' o : st_swap p e ti a to mn f v = Some (p', o) -> o < W128.
Proof.
  unfold st_swap. intros H. grd H. bnd H ix Hix. bnd H iy Hiy. grd H. bnd H rates Hrates. bnd H r Hr. bnd H amt Hamt. grd H. bnd H u Hu.
  bnd H c1 Hc1. bnd H c2 Hc2. cbv zeta in H. grd H. bnd H p2 Hp2. injection H as <- <-.
  unfold st_from_c in Hamt. bnd Hamt d Hd. eapply from_c_small; [|exact Hamt].
  unfold st_internal_get_return in Hr. bnd Hr cin Hcin. clear -Hr. unfold swap_to in Hr. do 9 (let z := fresh "z" in let Hz := fresh "Hz" in bnd Hr z Hz). cbv zeta in Hr.
  bnd Hr dy1 Hdy1. do 11 (let z := fresh "z" in let Hz := fresh "Hz" in bnd Hr z Hz). injection Hr as <-. cbn [sr_swapped].
  match goal with H : div_rate _ _ = Some ?z |- ?z < _ => unfold div_rate in H; bnd H q Hq; now apply fit_Some in H as [-> ?] end.
Qed.
Lemma sp_swap_small p ti a to mn f v p' o : sp_swap p ti a to mn f v = Some (p', o) -> o < W128.
Proof.
  unfold sp_swap. intros H. grd H. bnd H ii Hii. bnd H io Hio. bnd H out Hout. grd H. bnd H p2 Hp2. injection H as <- <-.
  unfold sp_internal_get_return in Hout. bnd Hout ib Hib. bnd Hout ob Hob. grd Hout. bnd Hout z1 H1. bnd Hout z2 H2. bnd Hout z3 H3. bnd Hout z4 H4.
  bnd Hout z5 H5. bnd Hout z6 H6. now apply fit_Some in Hout as [-> ?].
Qed.
Lemma pl_swap_small p rs now ti a to mn f v p' o : pl_swap p rs now ti a to mn f v = Some (p', o) -> o < W128.
Proof.
  intros H. destruct p as [q|q]; cbn [pl_swap] in H; bnd H x Hx; destruct x as [q' o']; injection H as <- <-.
  - eapply sp_swap_small; eauto.
  - eapply st_swap_small; eauto.
Qed.
(** Amounts given in an action are u128. *)
Definition act_u128 (a : Action) : Prop :=
  match a with ASwap _ _ am _ _ | ASwapByOutput _ _ am _ _ => match am with Some x => x < W128 | None => True end end.

(** ** A chain of swaps and its prediction *)
Definition follows (c0 : Exchange) (pc : gmap N Pool) (c : Exchange) : Prop :=
  same_settings c0 c /\
  forall pid p, ex_pool c pid = Some p -> exists m, pc_get c0 pc pid = Some (pl_with p m) /\ within m (pl_shares p).
Definition cached (m : gmap AccountId N) (acc : Account) : Prop :=
  ac_disjoint acc /\ forall t, default 0 (m !! t) = ac_held acc t /\ ac_held acc t < W128.

Lemma pl_with_same p : pl_with p (pl_shares p) = p.
Proof. destruct p as [q|q]; now destruct q. Qed.
Lemma follows_start c : follows c ∅ c.
Proof.
  split; [split_and!; reflexivity|]. intros pid p Hp. exists (pl_shares p). unfold pc_get. rewrite lookup_empty, pl_with_same.
  split; [exact Hp|apply within_refl].
Qed.
Lemma follows_put c0 pc c pid p p' m :
  follows c0 pc c -> ex_pool c pid = Some p -> within m (pl_shares p') -> follows c0 (<[pid := pl_with p' m]> pc) (ex_put_pool c pid p').
Proof.
  intros [Hs Hf] Hp Hm. split; [exact Hs|]. intros pid' q Hq. unfold ex_pool, ex_put_pool in Hq. cbn [ex_pools ex_set_pools] in Hq.
  unfold pc_get. destruct (decide (pid = pid')) as [<-|Hn].
  - rewrite list_lookup_insert in Hq by (eapply lookup_lt_Some; exact Hp). injection Hq as <-. rewrite lookup_insert. eauto.
  - rewrite list_lookup_insert_ne in Hq by lia. rewrite lookup_insert_ne by done. exact (Hf pid' q Hq).
Qed.
Lemma follows_same c0 pc c c' : same_settings c c' -> ex_pools c' = ex_pools c -> follows c0 pc c -> follows c0 pc c'.
Proof.
  intros (A & B & C) E [(A' & B' & C') Hf]. split; [unfold same_settings; split_and!; congruence|].
  intros pid p Hp. unfold ex_pool in Hp. rewrite E in Hp. exact (Hf pid p Hp).
Qed.

Lemma tc_sub_cached m acc t x acc' : cached m acc -> ac_withdraw acc t x = Some acc' -> exists m', tc_sub m t x = Some m' /\ cached m' acc'.
Proof.
  intros [Hd Hc] H. apply ac_withdraw_spec in H as (Hf & Hh & _ & _ & Hle); [|done].
  assert (exists m', tc_sub m t x = Some m') as [m' Hm'].
  { unfold tc_sub. destruct (N.eqb_spec x 0); [eauto|]. destruct (Hc t) as [E _]. destruct (m !! t) as [y|]; cbn [default] in E.
    - cbn [mbind option_bind]. rewrite csub_intro by (change (id y) with y in E; lia). cbn [mbind option_bind]. eauto.
    - lia. }
  exists m'. split; [exact Hm'|]. split; [apply Hf|]. intros u. apply (tc_sub_spec _ _ _ _ u) in Hm'. specialize (Hh u). destruct (Hc u) as [E L]. split; lia.
Qed.
Lemma tc_add_cached m acc t x acc' :
  cached m acc -> x < W128 -> ac_deposit acc t x = Some acc' -> exists m', tc_add m t x = Some m' /\ cached m' acc'.
Proof.
  intros [Hd Hc] Hx H.
  assert (Hb : ac_held acc' t < W128).
  { unfold ac_deposit in H. destruct (N.ltb_spec 0 x) as [Hx0|Hx0]; [|injection H as <-; apply Hc].
    unfold ac_held, ac_get_balance. destruct (ac_legacy acc !! t) as [y|] eqn:El.
    - bnd H z Hz. injection H as <-. cbn [ac_tokens]. rewrite lookup_insert. cbn [default from_option Datatypes.id]. now apply cadd_Some in Hz as [-> ?].
    - destruct (ac_tokens acc !! t) as [y|]; [bnd H z Hz; apply cadd_Some in Hz as [-> ?]|];
        injection H as <-; cbn [ac_tokens ac_set_tokens]; rewrite lookup_insert; cbn [default from_option Datatypes.id]; assumption. }
  apply ac_deposit_spec in H as (Hf & Hh & _ & _); [|done].
  assert (Ht : ac_held acc' t = ac_held acc t + x) by (rewrite (Hh t); unfold only; now rewrite String.eqb_refl).
  assert (exists m', tc_add m t x = Some m') as [m' Hm'].
  { unfold tc_add. destruct (Hc t) as [E _]. destruct (m !! t) as [y|]; cbn [default from_option Datatypes.id] in E; [|eauto].
    rewrite cadd_intro by lia. cbn [mbind option_bind]. eauto. }
  exists m'. split; [exact Hm'|]. split; [apply Hf|]. intros u. apply (tc_add_spec _ _ _ _ u) in Hm'. specialize (Hh u). destruct (Hc u) as [E L].
  split; [lia|]. unfold only in Hh. destruct (String.eqb_spec t u) as [Eu|Hn]; [rewrite <- Eu in *; lia|lia].
Qed.

Lemma ex_fees_same c0 c r : same_settings c0 c -> ex_fees_ref c r = ex_fees_ref c0 r.
Proof. intros (A & _ & C). unfold ex_fees_ref. now rewrite A, C. Qed.
Lemma fees_like_ref c r r' : r' = None \/ r' = r -> fees_like (ex_fees_ref c r) (ex_fees_ref c r').
Proof. intros [->| ->]; split; cbn; auto. Qed.
(** [b] has no part in the fees of a chain executed with referral [r]. *)
Definition outside (c : Exchange) (r : option (AccountId * N)) (b : AccountId) : Prop := no_fees_for b (ex_fees_ref c r).
Lemma shares_at_put c pid p p' pid' b :
  ex_pool c pid = Some p -> shares_at (ex_put_pool c pid p') pid' b =
    if decide (pid = pid') then shares_get (pl_shares p') b else shares_at c pid' b.
Proof.
  intros Hp. unfold shares_at, ex_pool, ex_put_pool. cbn [ex_pools ex_set_pools]. destruct (decide (pid = pid')) as [<-|Hn].
  - rewrite list_lookup_insert by (eapply lookup_lt_Some; exact Hp). apply pl_share_of_get.
  - now rewrite list_lookup_insert_ne by lia.
Qed.
Lemma shares_at_pool c pid p b : ex_pool c pid = Some p -> shares_at c pid b = shares_get (pl_shares p) b.
Proof. unfold shares_at. intros ->. apply pl_share_of_get. Qed.

Lemma pc_swap_sim c0 pc c e pid ti a to mn r r' c' o :
  follows c0 pc c -> r' = None \/ r' = r -> ex_pool_swap c e pid ti a to mn r = Some (c', o) ->
  exists pc', pc_swap c0 (e_now e) pc pid ti a to mn r' = Some (pc', o) /\ follows c0 pc' c' /\ o < W128 /\
    forall b, outside c0 r b -> forall q, shares_at c' q b = shares_at c q b.
Proof.
  intros Hf Hr H. unfold ex_pool_swap in H. bnd H c1 Hc1. apply ex_update_twap_frame in Hc1 as (tw & ->). bnd H p Hp. bnd H q Hq. destruct q as [p' o'].
  bnd H ii Hii. bnd H io Hio. bnd H v Hv. injection H as <- <-. revert Hp Hq. change (ex_pool (ex_set_twap c tw) pid) with (ex_pool c pid).
  change (ex_rates (ex_set_twap c tw)) with (ex_rates c). change (ex_fees_ref (ex_set_twap c tw) r) with (ex_fees_ref c r). intros Hp Hq.
  destruct Hf as [Hs Hf0] eqn:Ef; clear Ef. destruct (Hf0 pid p Hp) as (m & Hg & Hm). pose proof Hq as Ho. apply pl_swap_small in Ho.
  rewrite (ex_fees_same c0 c r Hs) in Hq. destruct Hs as (Hcfg & Hrt & Hself) eqn:Es; clear Es. rewrite Hrt in Hq.
  destruct (pl_swap_sim _ _ _ _ _ _ _ mn _ _ m _ _ Hm (fees_like_ref c0 r r' Hr) (N.le_refl _) Hq) as (K & W & O).
  eexists. unfold pc_swap. rewrite Hg. cbn [mbind option_bind]. rewrite K. cbn [mbind option_bind]. split; [reflexivity|].
  split; [|split; [exact Ho|]].
  - apply (follows_put c0 pc (ex_put_volumes (ex_set_twap c tw) pid v) pid p p' m); [|exact Hp|eapply within_trans; eauto].
    exact Hf.
  - intros b Hb q. rewrite (shares_at_put (ex_put_volumes (ex_set_twap c tw) pid v) pid p p' q b Hp). destruct (decide (pid = q)) as [<-|]; [|reflexivity].
    rewrite (O b Hb). symmetry. exact (shares_at_pool c pid p b Hp).
Qed.
Lemma pc_swap_by_output_sim c0 pc c e pid ti a to mx r r' c' o :
  follows c0 pc c -> r' = None \/ r' = r -> ex_pool_swap_by_output c e pid ti a to mx r = Some (c', o) ->
  exists pc', pc_swap_by_output c0 pc pid ti a to mx r' = Some (pc', o) /\ follows c0 pc' c' /\
    forall b, outside c0 r b -> forall q, shares_at c' q b = shares_at c q b.
Proof.
  intros Hf Hr H. unfold ex_pool_swap_by_output in H. bnd H c1 Hc1. apply ex_update_twap_frame in Hc1 as (tw & ->). bnd H p Hp. bnd H q Hq. destruct q as [p' o'].
  bnd H ii Hii. bnd H io Hio. bnd H v Hv. injection H as <- <-. revert Hp Hq. change (ex_pool (ex_set_twap c tw) pid) with (ex_pool c pid).
  change (ex_fees_ref (ex_set_twap c tw) r) with (ex_fees_ref c r). intros Hp Hq.
  destruct Hf as [Hs Hf0] eqn:Ef; clear Ef. destruct (Hf0 pid p Hp) as (m & Hg & Hm).
  rewrite (ex_fees_same c0 c r Hs) in Hq.
  destruct (pl_swap_by_output_sim _ _ _ _ _ mx _ _ m _ _ Hm (fees_like_ref c0 r r' Hr) (or_intror eq_refl) Hq) as (K & W & O).
  eexists. unfold pc_swap_by_output. rewrite Hg. cbn [mbind option_bind]. rewrite K. cbn [mbind option_bind]. split; [reflexivity|].
  split.
  - apply (follows_put c0 pc (ex_put_volumes (ex_set_twap c tw) pid v) pid p p' m); [|exact Hp|eapply within_trans; eauto].
    exact Hf.
  - intros b Hb q. rewrite (shares_at_put (ex_put_volumes (ex_set_twap c tw) pid v) pid p p' q b Hp). destruct (decide (pid = q)) as [<-|]; [|reflexivity].
    rewrite (O b Hb). symmetry. exact (shares_at_pool c pid p b Hp).
Qed.
Lemma pc_exec_action_sim c0 pc c e acc m r r' a prev c' acc' x :
  follows c0 pc c -> cached m acc -> r' = None \/ r' = r -> ex_exec_action c e acc r a prev = Some (c', acc', x) ->
  exists pc' m', pc_exec_action c0 (e_now e) pc m r' a prev = Some (pc', m', x) /\ follows c0 pc' c' /\ cached m' acc' /\
    forall b, outside c0 r b -> forall q, shares_at c' q b = shares_at c q b.
Proof.
  intros Hf Hc Hr H. unfold ex_exec_action, pc_exec_action in *. destruct a as [pid ti am to mn|pid ti am to mx].
  - both H y Hy. bnd H acc1 H1. bnd H q Hq. destruct q as [c1 o]. bnd H acc2 H2. injection H as <- <- <-.
    destruct (tc_sub_cached _ _ _ _ _ Hc H1) as (m1 & -> & Hc1). cbn [mbind option_bind].
    destruct (pc_swap_sim _ _ _ _ _ _ _ _ _ _ _ _ _ Hf Hr Hq) as (pc1 & -> & Hf1 & Ho & Hb). cbn [mbind option_bind].
    destruct (tc_add_cached _ _ _ _ _ Hc1 Ho H2) as (m2 & -> & Hc2). cbn [mbind option_bind]. eauto 10.
  - both H y Hy. bnd H q Hq. destruct q as [c1 o]. injection H as <- <- <-.
    destruct (pc_swap_by_output_sim _ _ _ _ _ _ _ _ _ _ _ _ _ Hf Hr Hq) as (pc1 & -> & Hf1 & Hb). cbn [mbind option_bind]. eauto 10.
Qed.
Lemma pc_swap_loop_sim c0 e r r' l : r' = None \/ r' = r -> forall pc c acc m prev c' acc' res,
  follows c0 pc c -> cached m acc -> ex_swap_loop c e acc r l prev = Some (c', acc', res) ->
  exists pc' m', pc_swap_loop c0 (e_now e) pc m r' l prev = Some (pc', m') /\ follows c0 pc' c' /\ cached m' acc' /\
    forall b, outside c0 r b -> forall q, shares_at c' q b = shares_at c q b.
Proof.
  intros Hr. induction l as [|a l IH]; intros pc c acc m prev c' acc' res Hf Hc H; cbn [ex_swap_loop pc_swap_loop] in *.
  - injection H as <- <- <-. eauto 10.
  - bnd H q Hq. destruct q as [[c1 acc1] x]. destruct (pc_exec_action_sim _ _ _ _ _ _ _ _ _ _ _ _ _ Hf Hc Hr Hq) as (pc1 & m1 & -> & Hf1 & Hc1 & Hb1).
    cbn [mbind option_bind]. destruct (IH _ _ _ _ _ _ _ _ Hf1 Hc1 H) as (pc2 & m2 & -> & Hf2 & Hc2 & Hb2).
    do 2 eexists. split; [reflexivity|]. split; [exact Hf2|]. split; [exact Hc2|]. intros b Hb q. rewrite (Hb2 b Hb q). auto.
Qed.
Lemma pc_finalize_sim m acc pi prev acc' : cached m acc -> ex_finalize acc pi prev = Some acc' -> exists m', pc_finalize m pi prev = Some m' /\ cached m' acc'.
Proof.
  intros Hc H. unfold ex_finalize, pc_finalize in *. destruct pi as [t|]; [|injection H as <-; eauto].
  both H x Hx. eapply tc_sub_cached; eauto.
Qed.
Lemma pc_output_loop_sim c0 e r r' l : r' = None \/ r' = r -> Forall act_u128 l -> forall pc c acc m pi prev c' acc' res,
  follows c0 pc c -> cached m acc -> ex_output_loop c e acc r l pi prev = Some (c', acc', res) ->
  exists pc' m', pc_output_loop c0 (e_now e) pc m r' l pi prev = Some (pc', m') /\ follows c0 pc' c' /\ cached m' acc' /\
    forall b, outside c0 r b -> forall q, shares_at c' q b = shares_at c q b.
Proof.
  intros Hr Hu. induction l as [|a l IH]; intros pc c acc m pi prev c' acc' res Hf Hc H; cbn [ex_output_loop pc_output_loop] in *.
  - bnd H acc1 H1. injection H as <- <- <-. destruct (pc_finalize_sim _ _ _ _ _ Hc H1) as (m' & -> & Hc'). cbn [mbind option_bind]. eauto 10.
  - inversion Hu as [|? ? Ha Hu']; subst. bnd H acc1 H1.
    assert (exists m1, (match a with
            | ASwapByOutput _ _ (Some x) to _ => m0 ← pc_finalize m pi prev; tc_add m0 to x
            | ASwapByOutput _ _ None to _ => t ← pi; _ ← ensure (String.eqb t to); Some m
            | ASwap _ _ _ _ _ => None
            end) = Some m1 /\ cached m1 acc1) as (m1 & -> & Hc1).
    { destruct a as [|pid ti [x|] to mx]; [discriminate| |].
      - bnd H1 acc0 H0. destruct (pc_finalize_sim _ _ _ _ _ Hc H0) as (m0 & -> & Hc0). cbn [mbind option_bind]. eapply tc_add_cached; eauto.
      - both H1 t Ht. bothg H1. injection H1 as <-. eauto. }
    cbn [mbind option_bind]. bnd H q Hq. destruct q as [[c1 acc2] x].
    destruct (pc_exec_action_sim _ _ _ _ _ _ _ _ _ _ _ _ _ Hf Hc1 Hr Hq) as (pc1 & m2 & -> & Hf1 & Hc2 & Hb1). cbn [mbind option_bind].
    destruct (IH Hu' _ _ _ _ _ _ _ _ _ Hf1 Hc2 H) as (pc2 & m3 & -> & Hf2 & Hc3 & Hb2).
    do 2 eexists. split; [reflexivity|]. split; [exact Hf2|]. split; [exact Hc3|]. intros b Hb q. rewrite (Hb2 b Hb q). auto.
Qed.
Lemma pc_execute_sim c e acc m r r' l prev skip c' acc' res :
  cached m acc -> r' = None \/ r' = r -> Forall act_u128 l -> ex_execute c e acc r l prev skip = Some (c', acc', res) ->
  exists pc' m', pc_execute c (e_now e) m r' l prev = Some (pc', m') /\ follows c pc' c' /\ cached m' acc' /\
    forall b, outside c r b -> forall q, shares_at c' q b = shares_at c q b.
Proof.
  intros Hc Hr Hu H. unfold ex_execute, pc_execute in *. bothg H. bothg H. both H a0 Ha0. bnd H q Hq. destruct q as [[c1 acc1] x]. bnd H u Hsk.
  injection H as <- <- <-. destruct (is_swap a0).
  - eapply pc_swap_loop_sim; eauto using follows_start.
  - eapply pc_output_loop_sim; eauto using follows_start.
Qed.

(** ** Zaps and their prediction *)
Definition alike (m m' : gmap AccountId N) : Prop := forall t, default 0 (m !! t) = default 0 (m' !! t).
(** the shares of pool [pid] predicted for a list of positions *)
Fixpoint foreseen (pid : N) (l : list AddInfo) (prs : list Prediction) : N :=
  match l, prs with
  | i :: l', r :: prs' => (if ai_pool i =? pid then pr_shares r else 0) + foreseen pid l' prs'
  | _, _ => 0
  end.
Lemma tc_sub_alike m mv t x m' : alike m mv -> tc_sub m t x = Some m' -> exists mv', tc_sub mv t x = Some mv' /\ alike m' mv'.
Proof.
  intros Ha H.
  assert (exists mv', tc_sub mv t x = Some mv') as [mv' Hmv'].
  { unfold tc_sub in *. destruct (N.eqb_spec x 0); [eauto|]. bnd H y Hy. bnd H z Hz. apply csub_Some in Hz as [-> Hle].
    specialize (Ha t). rewrite Hy in Ha. cbn [default from_option Datatypes.id] in Ha.
    destruct (mv !! t) as [yv|]; cbn [default from_option Datatypes.id] in Ha; [|lia]. subst yv.
    cbn [mbind option_bind]. rewrite csub_intro by lia. cbn [mbind option_bind]. eauto. }
  exists mv'. split; [exact Hmv'|]. intros u. apply (tc_sub_spec _ _ _ _ u) in H, Hmv'. specialize (Ha u). lia.
Qed.
Lemma tc_sub_all_alike l : forall m mv m', alike m mv -> tc_sub_all m l = Some m' -> exists mv', tc_sub_all mv l = Some mv' /\ alike m' mv'.
Proof.
  induction l as [|[t x] l IH]; intros m mv m' Ha H; cbn [tc_sub_all] in *; [injection H as <-; eauto|].
  bnd H m1 Hm1. destruct (tc_sub_alike _ _ _ _ _ Ha Hm1) as (mv1 & -> & Ha1). cbn [mbind option_bind]. eauto.
Qed.
Lemma pl_tvl_with p m rs now lim : pl_assert_tvl (pl_with p m) rs now lim = pl_assert_tvl p rs now lim.
Proof. destruct p; reflexivity. Qed.
Lemma pl_tokens_with p m : pl_tokens (pl_with p m) = pl_tokens p.
Proof. destruct p; reflexivity. Qed.
Lemma ex_fees_plain c0 c : same_settings c0 c -> ex_fees c = ex_fees c0.
Proof. intros (A & _ & C). unfold ex_fees. now rewrite A, C. Qed.

Lemma v_zap_one_sim c0 pc c e s m mv i c' m' :
  follows c0 pc c -> alike m mv -> ex_zap_one c e s m i = Some (c', m') ->
  exists pc' mv' pr, v_zap_one c0 (e_now e) pc mv i = Some (pc', mv', pr) /\ follows c0 pc' c' /\ alike m' mv' /\
    (no_fees_for s (ex_fees c0) -> forall q, shares_at c' q s = shares_at c q s + (if ai_pool i =? q then pr_shares pr else 0)).
Proof.
  intros Hf Ha H. apply ex_zap_one_inv in H as (p & p' & am & sh & Hp & Hadd & Htvl & Hm' & ->).
  pose proof Hf as [Hs Hf0]. destruct (Hf0 _ _ Hp) as (mm & Hg & Hm). pose proof Hs as (Hcfg & Hrt & Hself).
  rewrite Hrt, Hcfg in Htvl. rewrite (ex_fees_plain c0 c Hs), Hrt in Hadd.
  destruct (tc_sub_all_alike _ _ _ _ Ha Hm') as (mv' & Hmv & Ha').
  assert (K : within mm (pl_shares p') /\
    (match pl_with p mm with
     | PSimple _ => pl_add_liquidity (pl_with p mm) "@view" (ai_amounts i) true
     | PStable _ =>
         '(p', s) ← pl_add_stable_liquidity (pl_with p mm) (ex_rates c0) (e_now e) "@view" (ai_amounts i) 0 (ex_fees c0) true;
         Some (p', ai_amounts i, s)
     end) = Some (pl_with p' mm, am, sh) /\
    (no_fees_for s (ex_fees c0) -> shares_get (pl_shares p') s = shares_get (pl_shares p) s + sh)).
  { destruct Hadd as [(Hi & Hadd & _)|(Hi & -> & mn & _ & Hadd)].
    - destruct (pl_add_sim _ s "@view" _ mm _ _ _ Hm Hadd) as (K & W & O). rewrite K.
      split; [eapply within_trans; eauto|]. split; [now destruct p|auto].
    - destruct (pl_add_stable_sim _ _ _ s "@view" _ mn 0 _ (ex_fees c0) mm _ _ Hm (conj eq_refl (or_intror eq_refl)) (N.le_0_l _) Hadd) as (K & W & O).
      rewrite K. cbn [mbind option_bind]. split; [eapply within_trans; eauto|]. split; [destruct p; [now destruct Hi|reflexivity]|auto]. }
  destruct K as (W & K & O). unfold v_zap_one. rewrite Hg. cbn [mbind option_bind]. rewrite K. cbn [mbind option_bind].
  rewrite pl_tvl_with, Htvl. cbn [mbind option_bind]. rewrite pl_tokens_with, Hmv. cbn [mbind option_bind].
  do 3 eexists. split; [reflexivity|]. split; [eapply follows_put; eauto|]. split; [exact Ha'|].
  intros Hnf q. rewrite (shares_at_put c _ p p' q s Hp). cbn [pr_shares]. destruct (decide (ai_pool i = q)) as [<-|Hn].
  - rewrite N.eqb_refl, (shares_at_pool c _ p s Hp). auto.
  - rewrite (proj2 (N.eqb_neq _ _) Hn). lia.
Qed.
Lemma v_zap_loop_sim c0 e s l : forall pc c m mv c' m',
  follows c0 pc c -> alike m mv -> ex_zap_loop c e s m l = Some (c', m') ->
  exists mv' prs, v_zap_loop c0 (e_now e) pc mv l = Some (mv', prs) /\ alike m' mv' /\ length prs = length l /\
    (no_fees_for s (ex_fees c0) -> forall q, shares_at c' q s = shares_at c q s + foreseen q l prs).
Proof.
  induction l as [|i l IH]; intros pc c m mv c' m' Hf Ha H; cbn [ex_zap_loop v_zap_loop] in *.
  - injection H as <- <-. exists mv, []. cbn [foreseen length]. split_and!; auto. intros _ q. lia.
  - bnd H x Hx. destruct x as [c1 m1]. destruct (v_zap_one_sim _ _ _ _ _ _ _ _ _ _ Hf Ha Hx) as (pc1 & mv1 & pr & -> & Hf1 & Ha1 & O1).
    cbn [mbind option_bind]. destruct (IH _ _ _ _ _ _ Hf1 Ha1 H) as (mv2 & prs & -> & Ha2 & HL & O2). cbn [mbind option_bind].
    exists mv2, (pr :: prs). split; [reflexivity|]. split; [exact Ha2|]. split; [cbn [length]; lia|].
    intros Hnf q. rewrite (O2 Hnf q), (O1 Hnf q). cbn [foreseen]. lia.
Qed.

(** ** Deposits handed to a virtual account *)
Lemma cached_new t x acc : x < W128 -> ac_deposit ac_new t x = Some acc -> exists m, tc_add ∅ t x = Some m /\ cached m acc.
Proof.
  intros Hx H. eapply tc_add_cached; [|exact Hx|exact H]. split.
  - intros u y. unfold ac_new. cbn [ac_legacy]. now rewrite lookup_empty.
  - intros u. rewrite lookup_empty. split; [reflexivity|]. change (ac_held ac_new u) with 0. vm_compute. reflexivity.
Qed.

(** ** Removing liquidity and its prediction *)
Lemma sp_redeem_all_free S sh rs : forall mins out ls, sp_redeem_all S sh rs mins = Some (out, ls) ->
  sp_redeem_all S sh rs (repeat 0 (length rs)) = Some (out, ls) /\ length out = length rs.
Proof.
  induction rs as [|r rs IH]; intros [|m mins] out ls H; cbn [sp_redeem_all repeat length] in *; try discriminate; [now injection H as <- <-|].
  bnd H x Hx. destruct x as [a l]. bnd H y Hy. destruct y as [als ls']. injection H as <- <-. destruct (IH _ _ _ Hy) as [-> HL].
  unfold sp_redeem in *. both Hx z Hz. both Hx q Hq. both Hx am Ham. grd Hx. both Hx lf Hlf. injection Hx as <- <-.
  rewrite (ensure_intro (0 <=? am)) by (apply N.leb_le; lia). cbn [mbind option_bind]. cbn [length]. auto.
Qed.
Lemma st_redeem_all_free k S sh ds : forall cs mins out ls, st_redeem_all k S sh ds cs mins = Some (out, ls) ->
  st_redeem_all k S sh ds cs (repeat 0 (length mins)) = Some (out, ls).
Proof.
  induction ds as [|d ds IH]; intros [|c cs] [|m mins] out ls H; cbn [st_redeem_all repeat length] in *; try discriminate; [exact H|].
  bnd H x Hx. destruct x as [a l]. bnd H y Hy. destruct y as [als ls']. injection H as <- <-. rewrite (IH _ _ _ _ Hy).
  unfold st_redeem in *. both Hx z Hz. both Hx q Hq. both Hx r Hr. both Hx lf Hlf. bothg Hx. both Hx am Ham. grd Hx. injection Hx as <- <-.
  rewrite (ensure_intro (0 <=? am)) by (apply N.leb_le; lia). reflexivity.
Qed.
Lemma pl_remove_sim p s s' sh mins p' out :
  pl_wf p -> pl_remove_liquidity p s sh mins false = Some (p', out) ->
  exists p2, pl_remove_liquidity p s' sh (repeat 0 (length (pl_tokens p))) true = Some (p2, out).
Proof.
  intros Hwf H. destruct p as [q|q]; cbn [pl_remove_liquidity pl_tokens] in *; bnd H x Hx; destruct x as [q' o]; injection H as <- <-.
  - unfold sp_remove_liquidity in *. destruct Hwf as (_ & HL & (x0 & y0 & HA & _) & _). grd Hx. bnd Hx m Hm. bnd Hx x Hr. destruct x as [am rs]. both Hx s1 Hs1.
    injection Hx as <- <-. rewrite repeat_length, HL. cbn [Nat.eqb NUM_TOKENS]. cbn [ensure mbind option_bind].
    destruct (sp_redeem_all_free _ _ _ _ _ _ Hr) as [K _]. replace (length (sp_amounts q)) with 2%nat in K by now rewrite HA. rewrite K. cbn [mbind option_bind]. eauto.
  - unfold st_remove_by_shares in *. grd Hx. apply Nat.eqb_eq in G. bnd Hx m Hm. bnd Hx x Hr. destruct x as [am rs]. both Hx s1 Hs1.
    injection Hx as <- <-. rewrite repeat_length, Nat.eqb_refl. cbn [ensure mbind option_bind].
    pose proof (st_redeem_all_free _ _ _ _ _ _ _ _ Hr) as K. rewrite G in K. rewrite K. cbn [mbind option_bind]. eauto.
Qed.
Lemma pl_remove_tokens_sim p rs now s s' am mx mx' f p' burn :
  pl_remove_by_tokens p rs now s am mx f false = Some (p', burn) ->
  exists p2, pl_remove_by_tokens p rs now s' am mx' f true = Some (p2, burn).
Proof.
  intros H. destruct p as [q|q]; cbn [pl_remove_by_tokens] in *; [discriminate|]; bnd H x Hx; destruct x as [q' o]; injection H as <- <-.
  unfold st_remove_by_tokens in *. bothg Hx. both Hx cam Hcam. both Hx c' Hc'. bothg Hx. both Hx u Hu. both Hx rates Hrates. both Hx x Hl. destruct x as [b fee].
  bnd Hx m Hm. both Hx s1 Hs1. cbv zeta in *. bnd Hx p2 Hp2. injection Hx as <- <-.
  set (p1 := st_set_supply (st_set_shares (st_set_c q c') m) s1) in *.
  change (st_set_supply (st_set_shares (st_set_c q c') (st_shares q)) s1) with (st_set_shares p1 (st_shares q)).
  eapply (st_mint_fee_part_sim p1 fee f f (st_shares q)) in Hp2 as (K & _); [|clear -Hm|split; [reflexivity|now right]].
  - rewrite K. cbn [mbind option_bind]. eauto.
  - change (st_shares p1) with m. bnd Hm prev Hprev. grd Hm. grd Hm. injection Hm as <-. unfold st_burn. destruct (b =? 0); [apply within_refl|apply within_insert].
Qed.
