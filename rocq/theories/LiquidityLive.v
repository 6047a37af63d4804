(** * Proofs for C92: predicted liquidity changes execute *)
From Verif Require Import Base BaseLemmas SimplePool SimplePoolProofs SpecSimple SimplePoolInv SimpleFacts StableMath StablePool
  SpecStable StablePoolProofs StablePoolInv StableFacts Rates Echo Twap SpecTwap PropTwap.
From Verif Require Import Account Pool Exchange SpecExchange AccountProofs PoolFacts
  ExchangeProofs ExchangeInv ExchangeEffect ExchangeFrames SpecWorld WorldProofs PropWorld SpecHistory HistoryProofs
  TwapInv SpecRecords PropRecords SpecExit ExitProofs Views ViewProofs.

(** ** Minting works without a view when it works in a view *)
Lemma sp_mint_ok p a s q b : shares_sum (sp_shares p) <= sp_supply p ->
  sp_mint_shares p b s true = Some q -> exists p', sp_mint_shares p a s false = Some p'.
Proof.
  intros Hsum. unfold sp_mint_shares. destruct (N.eqb_spec s 0); [eauto|]. intros H. bnd H z Hz. apply cadd_Some in Hz as [-> Hz].
  rewrite cadd_intro by done. cbn [mbind option_bind]. cbv zeta. unfold add_to_collection. cbn [sp_set_supply sp_shares].
  pose proof (shares_get_le (sp_shares p) a). rewrite cadd_intro by lia. cbn [mbind option_bind]. eauto.
Qed.
Lemma st_mint_view_ok p a s q b : shares_sum (st_shares p) <= st_supply p -> st_supply p < W128 ->
  st_mint_shares p b s true = Some q -> exists p', st_mint_shares p a s false = Some p'.
Proof. intros Hsum HW H. apply StablePoolProofs.st_mint_inv in H as [_ H]. apply st_mint_ok; auto. Qed.
Lemma st_mint_zero p a v : st_mint_shares p a 0 v = Some p.
Proof. reflexivity. Qed.
Lemma st_mint_fee_ok p p0 fee f q : shares_sum (st_shares p) <= st_supply p -> st_supply p < W128 -> referral_info f = None ->
  st_supply p0 = st_supply p -> st_mint_fee_part p0 fee f true = Some q -> exists p', st_mint_fee_part p fee f false = Some p'.
Proof.
  intros Hsum HW Hn Hs H. unfold st_mint_fee_part in *. destruct (0 <? fee); [|eauto]. unfold calc_referral_share in *. rewrite Hn in *.
  bnd H ad Had. rewrite Had. cbn [mbind option_bind] in *. cbv zeta in *. change (0 <? 0) with false in *. cbn [andb] in *.
  rewrite st_mint_zero in H. rewrite st_mint_zero. cbn [mbind option_bind] in *.
  bnd H r Hr. rewrite Hr. cbn [mbind option_bind]. apply StablePoolProofs.st_mint_inv in H as [_ H]. rewrite Hs in H. apply st_mint_ok; auto.
Qed.

(** ** Pools *)
Lemma pl_add_quoted p a am q taken sh : pl_wf p -> pl_add_liquidity p "@view" am true = Some (q, taken, sh) ->
  exists p', pl_add_liquidity p a am false = Some (p', taken, sh).
Proof.
  intros Hwf H. destruct p as [s|s]; cbn [pl_add_liquidity pl_wf] in *; [|discriminate]. bnd H y Hy. destruct y as [[q' tk] x]. injection H as <- <- <-.
  unfold sp_add_liquidity in Hy |- *. bothg Hy. bnd Hy z Hz. destruct z as [[rs tk'] sh'].
  rewrite Hz. cbn [mbind option_bind]. bnd Hy q2 Hq2. apply bind_Some in Hy as ([] & G2 & Hy). injection Hy as <- <- <-.
  eapply (sp_mint_ok _ a) in Hq2 as [p' Hp']. 2: { cbn [sp_set_amounts sp_shares sp_supply]. destruct Hwf as (_ & _ & _ & _ & _ & <-). reflexivity. }
  rewrite Hp'. cbn [mbind option_bind]. rewrite G2. cbn [mbind option_bind]. eauto.
Qed.
Lemma pl_add_stable_quoted p rs now a am mn f q sh : pl_wf p -> referral_info f = None -> mn <= sh ->
  pl_add_stable_liquidity p rs now "@view" am 0 f true = Some (q, sh) ->
  exists p', pl_add_stable_liquidity p rs now a am mn f false = Some (p', sh).
Proof.
  intros Hwf Hn Hmn H. destruct p as [s|s]; cbn [pl_add_stable_liquidity pl_wf] in *; [discriminate|]. bnd H y Hy. destruct y as [q' x]. injection H as <- <-.
  unfold st_add_liquidity in Hy |- *. bothg Hy. bnd Hy rates Hr. rewrite Hr. cbn [mbind option_bind].
  bnd Hy z Hz. destruct z as [ns fee]. rewrite Hz. cbn [mbind option_bind]. grd Hy. bnd Hy ca Hca. rewrite Hca. cbn [mbind option_bind].
  bnd Hy c' Hc'. rewrite Hc'. cbn [mbind option_bind]. bnd Hy p1 Hp1. bnd Hy p2 Hp2. injection Hy as <- <-.
  rewrite ensure_intro by now apply N.leb_le. cbn [mbind option_bind].
  destruct Hwf as (_ & _ & _ & _ & HW & Hsum & _). pose proof Hp1 as Hv. apply StablePoolProofs.st_mint_inv in Hv as [Ev HWv].
  destruct (st_mint_view_ok (st_set_c s c') a ns p1 "@view") as [q1 Hq1]; auto. { cbn [st_set_c st_shares st_supply]. now rewrite Hsum. }
  rewrite Hq1. cbn [mbind option_bind]. apply StablePoolProofs.st_mint_inv in Hq1 as [Eq HWq].
  destruct (st_mint_fee_ok q1 p1 fee f p2) as [q2 Hq2]; auto.
  - rewrite Eq. cbn [st_set_supply st_set_shares st_set_c st_shares st_supply]. rewrite shares_sum_credit. cbn [st_set_c st_shares st_supply]. lia.
  - rewrite Eq. cbn [st_set_supply st_set_shares st_set_c st_shares st_supply] in *. auto.
  - rewrite Eq, Ev. reflexivity.
  - rewrite Hq2. cbn [mbind option_bind]. eauto.
Qed.
Lemma pl_remove_tokens_quoted p rs now a am mx f q burn : pl_wf p -> referral_info f = None -> burn <= mx -> 0 < burn <= pl_share_of p a ->
  pl_remove_by_tokens p rs now "@view" am (W128 - 1) f true = Some (q, burn) ->
  exists p', pl_remove_by_tokens p rs now a am mx f false = Some (p', burn).
Proof.
  intros Hwf Hn Hmx [H0 Hb] H. destruct p as [s|s]; cbn [pl_remove_by_tokens pl_wf pl_share_of] in *; [discriminate|]. bnd H y Hy. destruct y as [q' x]. injection H as <- <-.
  destruct (share_entry _ _ _ H0 Hb) as (prev & Hprev & Hle).
  unfold st_remove_by_tokens in Hy |- *. bothg Hy. bnd Hy ca Hca. rewrite Hca. cbn [mbind option_bind].
  bnd Hy c' Hc'. rewrite Hc'. cbn [mbind option_bind]. bothg Hy.
  bnd Hy uu Huu. rewrite Huu. cbn [mbind option_bind]. bnd Hy rates Hr. rewrite Hr. cbn [mbind option_bind].
  bnd Hy z Hz. destruct z as [bn fee]. rewrite Hz. cbn [mbind option_bind] in *. bnd Hy sx Hss. cbv zeta in Hy. bnd Hy p2 Hp2. injection Hy as <- <-.
  rewrite Hprev. cbn [mbind option_bind]. rewrite ensure_intro by now apply N.leb_le. cbn [mbind option_bind]. rewrite ensure_intro by now apply N.leb_le.
  cbn [mbind option_bind]. rewrite Hss. cbn [mbind option_bind]. cbv zeta. apply csub_Some in Hss as [-> Hbs].
  destruct Hwf as (_ & _ & _ & _ & HW & Hsum & _).
  match type of Hp2 with st_mint_fee_part ?x _ _ _ = _ => set (p0 := x) in * end.
  match goal with |- context[st_mint_fee_part ?x _ _ false] => set (p1 := x) end.
  destruct (st_mint_fee_ok p1 p0 fee f p2) as [p3 Hp3]; auto.
  - unfold p1. cbn [st_set_supply st_set_shares st_set_c st_shares st_supply]. unfold st_burn. rewrite (proj2 (N.eqb_neq bn 0)) by lia.
    pose proof (shares_sum_insert (st_shares s) a (prev - bn)) as E. unfold shares_get in E. rewrite Hprev in E. cbn [default from_option Datatypes.id] in E. lia.
  - unfold p1. cbn [st_set_supply st_set_shares st_set_c st_shares st_supply]. lia.
  - rewrite Hp3. cbn [mbind option_bind]. eauto.
Qed.

(** ** Accounts *)
Lemma ac_withdraw_any a t x : ac_legacy a !! t = None -> x <= ac_held a t ->
  exists a', ac_withdraw a t x = Some a' /\ ac_storage_usage a' = ac_storage_usage a /\ ac_near a' = ac_near a /\ ac_legacy a' = ac_legacy a.
Proof.
  intros Hl Hx. destruct (N.eq_dec x 0) as [->|H0].
  - exists a. unfold ac_withdraw. change (0 <? 0) with false. auto.
  - destruct (ac_withdraw_new a t x Hl) as (a' & Ha & Hu & Hn); [lia|]. exists a'. split; [done|]. split; [done|]. split; [done|].
    unfold ac_withdraw in Ha. rewrite (proj2 (N.ltb_lt 0 x)) in Ha by lia. rewrite Hl in Ha. bnd Ha y Hy. bnd Ha z Hz. injection Ha as <-. reflexivity.
Qed.
Lemma ac_withdraw_all_intro ts : forall a xs, ac_disjoint a -> NoDup ts -> length xs = length ts -> (forall t, t ∈ ts -> ac_legacy a !! t = None) ->
  (forall t, beside t ts xs <= ac_held a t) ->
  exists a', ac_withdraw_all a ts xs = Some a' /\ ac_storage_usage a' = ac_storage_usage a /\ ac_near a' = ac_near a.
Proof.
  induction ts as [|t ts IH]; intros a xs Hd Hnd Hl Hleg Hh; [exists a; auto|]. destruct xs as [|x xs]; [discriminate|]. cbn [ac_withdraw_all].
  destruct (ac_withdraw_any a t x) as (a1 & H1 & Hu & Hn & Hlg).
  { apply Hleg, elem_of_cons. now left. }
  { specialize (Hh t). rewrite beside_split, only_same in Hh by done. lia. }
  rewrite H1. cbn [mbind option_bind]. pose proof (ac_withdraw_spec _ _ _ _ Hd H1) as ((Hd1 & _) & Hh1 & _).
  destruct (IH a1 xs) as (a2 & H2 & Hu2 & Hn2); auto.
  - now apply NoDup_cons in Hnd as [_ Hnd].
  - intros u Hu'. rewrite Hlg. apply Hleg, elem_of_cons. now right.
  - intros u. specialize (Hh u). specialize (Hh1 u). rewrite beside_split in Hh by done. lia.
  - exists a2. split; [done|]. split; congruence.
Qed.

(** ** Shares burned *)
Lemma pl_remove_tokens_burns p rs now a am mx f p' burn : a <> exchange_id f -> referral_info f = None ->
  pl_remove_by_tokens p rs now a am mx f false = Some (p', burn) -> pl_share_of p' a + burn = pl_share_of p a.
Proof.
  intros Ha Hn H. destruct p as [s|s]; cbn [pl_remove_by_tokens] in H; [discriminate|]. bnd H y Hy. destruct y as [q' x]. injection H as <- <-.
  rewrite !pl_share_of_get. cbn [pl_shares]. unfold st_remove_by_tokens in Hy. grd Hy. bnd Hy ca Hca. bnd Hy c' Hc'. grd Hy. bnd Hy uu Huu. bnd Hy rates Hr. bnd Hy z Hz. destruct z as [bn fee].
  bnd Hy m Hm. bnd Hm prev Hprev. grd Hm. grd Hm. injection Hm as <-. bnd Hy sx Hss. cbv zeta in Hy. bnd Hy p2 Hp2. injection Hy as <- <-.
  apply st_mint_fee_inv in Hp2 as (m & s2 & -> & _ & _ & _ & _ & Ho). cbn [st_set_supply st_set_shares st_set_c st_shares] in *.
  unfold shares_get. rewrite (Ho a) by (auto; intros rid rfee E; congruence). bool_inv. unfold st_burn. destruct (N.eqb_spec bn 0) as [->|H0].
  - rewrite Hprev. cbn [default from_option Datatypes.id]. lia.
  - rewrite lookup_insert, Hprev. cbn [default from_option Datatypes.id]. lia.
Qed.
