(** * Predicted zaps execute: adding the positions *)
From Verif Require Import Base BaseLemmas SimplePool SimplePoolProofs SpecSimple SimplePoolInv SimpleFacts StableMath StablePool
  SpecStable StablePoolProofs StablePoolInv StableFacts Rates Echo Twap SpecTwap PropTwap.
From Verif Require Import PropSimple PropStable.
From Verif Require Import Account Pool Exchange SpecExchange AccountProofs PoolFacts
  ExchangeProofs ExchangeInv ExchangeEffect ExchangeFrames SpecWorld WorldProofs ExExample PropWorld SpecSwap SwapProofs SpecHistory HistoryProofs
  PropHistory TwapInv SpecRecords PropRecords SpecExit ExitProofs Views ViewProofs SpecSettings PropSettings SpecTradeLive TradeLive LiquidityLive PropLiquidity ChainLive.

(** ** A view does not look at the shares *)
Lemma pl_add_view p m am q taken sh : pl_add_liquidity (pl_with p m) "@view" am true = Some (q, taken, sh) ->
  exists q0, pl_add_liquidity p "@view" am true = Some (q0, taken, sh).
Proof.
  intros H. destruct p as [s|s]; cbn [pl_add_liquidity pl_with] in *; [|discriminate]. bnd H y Hy. destruct y as [[q' tk] x]. injection H as <- <- <-.
  unfold sp_add_liquidity in *. cbn [sp_set_shares sp_amounts sp_supply] in Hy. bothg Hy. bnd Hy z Hz. destruct z as [[rs tk'] sh'].
  rewrite Hz. cbn [mbind option_bind]. bnd Hy q2 Hq2. apply bind_Some in Hy as ([] & G2 & Hy). injection Hy as <- <- <-.
  eapply (sp_mint_view_ok _ (sp_set_amounts s rs) _ "@view") in Hq2 as (q'' & -> & E); [|reflexivity]. cbn [mbind option_bind]. rewrite G2. cbn [mbind option_bind]. eauto.
Qed.
Lemma st_add_view p e m am f q sh : referral_info f = None -> st_add_liquidity (st_set_shares p m) e "@view" am 0 f true = Some (q, sh) ->
  exists q0, st_add_liquidity p e "@view" am 0 f true = Some (q0, sh).
Proof.
  intros Hn H. unfold st_add_liquidity in *.
  unfold st_calc_add_liquidity, st_amounts_to_c, st_get_rates, st_curve, st_assert_rates_valid in *. revert H. st_proj. intros H. bothg H. both H rates Hr.
  both H z Hz. destruct z as [ns fee]. bothg H. both H ca Hca. both H c' Hc'. bnd H p1 Hp1. bnd H p2 Hp2. injection H as <- <-.
  change (st_set_c (st_set_shares p m) c') with (st_set_shares (st_set_c p c') m) in Hp1.
  eapply (st_mint_view_same _ (st_set_c p c')) in Hp1 as (q1 & Hq1 & E); [|reflexivity]. rewrite Hq1. cbn [mbind option_bind].
  assert (exists q2, st_mint_fee_part q1 fee f true = Some q2) as [q2 ->]; [|cbn [mbind option_bind]; eauto].
  unfold st_mint_fee_part in *. destruct (0 <? fee); [|eauto]. unfold calc_referral_share in *. rewrite Hn in *.
  bnd Hp2 ad Had. rewrite Had. cbn [mbind option_bind] in *. cbv zeta in *. change (0 <? 0) with false in *. cbn [andb] in *.
  rewrite st_mint_zero in Hp2. rewrite st_mint_zero. cbn [mbind option_bind] in *.
  bnd Hp2 r2 Hr2. rewrite Hr2. cbn [mbind option_bind]. eapply (st_mint_view_same _ q1) in Hp2 as (q2 & -> & _); [eauto|exact E].
Qed.
Lemma pl_add_stable_view p rs now m am f q sh : referral_info f = None -> pl_add_stable_liquidity (pl_with p m) rs now "@view" am 0 f true = Some (q, sh) ->
  exists q0, pl_add_stable_liquidity p rs now "@view" am 0 f true = Some (q0, sh).
Proof.
  intros Hn H. destruct p as [s|s]; cbn [pl_add_stable_liquidity pl_with] in *; [discriminate|]. bnd H y Hy. destruct y as [q' x]. injection H as <- <-.
  change (pl_env rs now (st_set_shares s m)) with (pl_env rs now s) in Hy. apply st_add_view in Hy as (q0 & ->); eauto.
Qed.
(** ** One position *)
(** The lowest amounts or shares demanded for a position are met by what is predicted for it. *)
Definition accepts (c : Exchange) (i : AddInfo) (r : Prediction) : Prop :=
  match ex_pool c (ai_pool i) with
  | Some (PSimple _) => exists ms, ai_mins i = Some ms /\ reaches (pr_need r) ms
  | Some (PStable _) => exists mn, ai_min_shares i = Some mn /\ mn <= pr_shares r
  | None => False
  end.
Definition same_kinds (c0 c : Exchange) : Prop := forall pid, pl_kind <$> ex_pool c0 pid = pl_kind <$> ex_pool c pid.
Lemma accepts_kinds c0 c i r p : same_kinds c0 c -> ex_pool c (ai_pool i) = Some p -> accepts c0 i r ->
  match p with
  | PSimple _ => exists ms, ai_mins i = Some ms /\ reaches (pr_need r) ms
  | PStable _ => exists mn, ai_min_shares i = Some mn /\ mn <= pr_shares r
  end.
Proof.
  intros Hk Hp H. specialize (Hk (ai_pool i)). rewrite Hp in Hk. unfold accepts in H.
  destruct (ex_pool c0 (ai_pool i)) as [p0|]; [|done]. injection Hk as Hk. destruct p0, p; cbn [pl_kind] in Hk; try discriminate; exact H.
Qed.
Lemma zap_one_live c0 pc c e s m mv i pc' mv' r :
  ex_wf (e_now e) c -> e_now e < 2 ^ 64 -> follows c0 pc c -> cache_known c0 pc c -> same_kinds c0 c -> alike m mv -> accepts c0 i r ->
  v_zap_one c0 (e_now e) pc mv i = Some (pc', mv', r) ->
  exists c' m', ex_zap_one c e s m i = Some (c', m') /\ ex_wf (e_now e) c' /\ follows c0 pc' c' /\ cache_known c0 pc' c' /\ same_kinds c0 c' /\ alike m' mv'.
Proof.
  intros Hwf HW Hf Hk Hkd Ha Hac H. pose proof H as H'. unfold v_zap_one in H. bnd H q Hq. bnd H y Hy. destruct y as [[q' am] sh]. grd H. bnd H mv1 Hm1. injection H as <- <- <-.
  destruct (Hk _ _ Hq) as [p Hp]. destruct (proj2 Hf _ _ Hp) as (mm & Hg & Hm). rewrite Hq in Hg. injection Hg as ->.
  pose proof (pl_reachable_wf _ _ (ex_wf_pool _ _ _ _ Hwf Hp)) as Hpw. pose proof (proj1 Hf) as (Hcfg & Hrt & Hself).
  rewrite pl_tokens_with in Hm1. destruct (tc_sub_all_alike _ _ _ _ (fun t => eq_sym (Ha t)) Hm1) as (m1 & Em1 & Ha1).
  apply (accepts_kinds c0 c i _ p Hkd Hp) in Hac. cbn [pr_need pr_shares] in Hac.
  assert (K : exists p', (match p with
     | PSimple _ =>
         '(p', taken, _shares) ← pl_add_liquidity p s (ai_amounts i) false;
         ms ← ai_mins i;
         _ ← mins_met taken ms;
         Some (p', taken)
     | PStable _ =>
         mn ← ai_min_shares i;
         '(p', _shares) ← pl_add_stable_liquidity p (ex_rates c) (e_now e) s (ai_amounts i) mn (ex_fees c) false;
         Some (p', ai_amounts i)
     end) = Some (p', am) /\ q' = pl_with p' mm /\ pl_same p p').
  { destruct p as [p|p]; cbn [pl_with] in Hy.
    - change (PSimple (sp_set_shares p mm)) with (pl_with (PSimple p) mm) in Hy. destruct Hac as (ms & Hms & Hre).
      destruct (pl_add_view _ _ _ _ _ _ Hy) as (q0 & Hv). destruct (pl_add_quoted _ s _ _ _ _ Hpw Hv) as (p' & Hp'). exists p'.
      rewrite Hp'. cbn [mbind option_bind]. rewrite Hms. cbn [mbind option_bind]. rewrite mins_met_intro by done. cbn [mbind option_bind]. split; [reflexivity|]. split.
      + destruct (pl_add_sim _ s "@view" _ mm _ _ _ Hm Hp') as (K & _). rewrite Hy in K. now injection K as ->.
      + apply (pl_add_spec _ (ex_rates c) (e_now e)) in Hp' as (Hst & _); [|done]. apply pl_step_same in Hst; done.
    - change (PStable (st_set_shares p mm)) with (pl_with (PStable p) mm) in Hy. destruct Hac as (mn & Hmn & Hle). bnd Hy z Hz. destruct z as [q1 s1]. injection Hy as -> <- ->.
      rewrite <- Hrt, <- (ex_fees_plain c0 c (proj1 Hf)) in Hz.
      destruct (pl_add_stable_view _ _ _ _ _ (ex_fees c) _ _ eq_refl Hz) as (q0 & Hv). destruct (pl_add_stable_quoted _ _ _ s _ mn (ex_fees c) _ _ Hpw eq_refl Hle Hv) as (p' & Hp'). exists p'.
      rewrite Hmn. cbn [mbind option_bind]. rewrite Hp'. cbn [mbind option_bind]. split; [reflexivity|]. split.
      + destruct (pl_add_stable_sim _ _ _ s "@view" _ mn 0 _ (ex_fees c) mm _ _ Hm (conj eq_refl (or_intror eq_refl)) (N.le_0_l _) Hp') as (K & _). rewrite Hz in K. now injection K as ->.
      + apply pl_add_stable_spec in Hp' as (Hst & _); [|done]. apply pl_step_same in Hst; done. }
  destruct K as (p' & K & -> & Hsame). rewrite pl_tvl_with, <- Hrt, <- Hcfg in G.
  assert (E : ex_zap_one c e s m i = Some (ex_put_pool c (ai_pool i) p', m1)).
  { unfold ex_zap_one. rewrite Hp. cbn [mbind option_bind]. rewrite K. cbn [mbind option_bind]. rewrite G. cbn [mbind option_bind]. rewrite Em1. reflexivity. }
  eexists _, m1. split; [exact E|]. split; [apply ex_zap_one_moved in E as (_ & Hw); [apply Hw|done|done]|].
  split. { destruct (v_zap_one_sim _ _ _ _ _ _ _ _ _ _ Hf Ha E) as (pc2 & mv2 & pr2 & E2 & Hf2 & _). rewrite H' in E2. now injection E2 as <- <- <-. }
  split; [eapply known_put; [exact Hk|exact Hp|reflexivity]|]. split; [|intros t; symmetry; apply Ha1].
  intros pid. rewrite (Hkd pid). unfold ex_pool, ex_put_pool. cbn [ex_pools ex_set_pools]. destruct (decide (ai_pool i = pid)) as [<-|Hn].
  - rewrite list_lookup_insert by (eapply lookup_lt_Some; exact Hp). change (ex_pools c !! N.to_nat (ai_pool i)) with (ex_pool c (ai_pool i)). rewrite Hp. cbn. f_equal. symmetry. apply Hsame.
  - rewrite list_lookup_insert_ne by lia. reflexivity.
Qed.
Lemma zap_loop_live c0 e s l : e_now e < 2 ^ 64 -> forall pc c m mv mv' prs,
  ex_wf (e_now e) c -> follows c0 pc c -> cache_known c0 pc c -> same_kinds c0 c -> alike m mv -> Forall2 (accepts c0) l prs ->
  v_zap_loop c0 (e_now e) pc mv l = Some (mv', prs) ->
  exists c' m', ex_zap_loop c e s m l = Some (c', m') /\ alike m' mv'.
Proof.
  intros HW. induction l as [|i l IH]; intros pc c m mv mv' prs Hwf Hf Hk Hkd Ha Hac H; cbn [v_zap_loop ex_zap_loop] in *.
  - injection H as <- <-. eauto.
  - bnd H y Hy. destruct y as [[pc1 mv1] r]. bnd H z Hz. destruct z as [mv2 prs']. injection H as <- <-. inversion Hac; subst.
    destruct (zap_one_live c0 pc c e s m mv i pc1 mv1 r) as (c1 & m1 & E & Hw1 & Hf1 & Hk1 & Hkd1 & Ha1); auto.
    rewrite E. cbn [mbind option_bind]. eapply IH; eauto.
Qed.
Lemma tc_add_all_intro l : forall m, NoDup l.*1 -> (forall t x, (t, x) ∈ l -> m !! t = None) -> exists m', tc_add_all m l = Some m'.
Proof.
  induction l as [|[t x] l IH]; intros m Hn H; cbn [tc_add_all]; [eauto|]. cbn [fmap list_fmap fst] in Hn. apply NoDup_cons in Hn as [Hni Hn].
  unfold tc_add. rewrite (H t x) by left. cbn [mbind option_bind]. apply IH; [exact Hn|]. intros u y Hu. rewrite lookup_insert_ne; [apply (H u y); now right|].
  intros <-. apply Hni. apply elem_of_list_fmap. exists (t, y). auto.
Qed.
