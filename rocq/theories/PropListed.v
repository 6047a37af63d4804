(** * C101: whose doing is a new token on an account's list *)
From Verif Require Import Base BaseLemmas SimplePool SimplePoolProofs SpecSimple SimplePoolInv StableMath StablePool
  SpecStable StablePoolProofs StablePoolInv Rates Echo Twap Account Pool Exchange SpecExchange AccountProofs PoolFacts
  ExchangeProofs ExchangeInv ExchangeEffect ExchangeFrames SpecWorld WorldProofs SpecSwap SwapProofs SpecHistory HistoryProofs ExExample SpecListed.

(** ** Entries of one account *)
Definition lists (a : Account) (u : AccountId) : Prop := is_Some (ac_get_balance a u).
Lemma lists_iff a u : lists a u <-> is_Some (ac_tokens a !! u) \/ is_Some (ac_legacy a !! u).
Proof. unfold lists, ac_get_balance. destruct (ac_tokens a !! u); [intuition eauto|]. intuition. now destruct H0. Qed.
Lemma lists_deposit a t x a' u : ac_deposit a t x = Some a' -> lists a' u -> lists a u \/ 0 < x /\ u = t.
Proof.
  unfold ac_deposit. destruct (N.ltb_spec 0 x) as [Hx|]; [|intros [= <-]; auto]. intros H.
  destruct (decide (u = t)) as [->|Hne]; [auto|]. rewrite !lists_iff.
  destruct (ac_legacy a !! t); [bnd H z Hz; injection H as <-; cbn; rewrite lookup_insert_ne, lookup_delete_ne by congruence; auto|].
  destruct (ac_tokens a !! t); [bnd H z Hz|]; injection H as <-; cbn; rewrite lookup_insert_ne by congruence; auto.
Qed.
Lemma lists_withdraw a t x a' u : ac_withdraw a t x = Some a' -> lists a' u -> lists a u.
Proof.
  unfold ac_withdraw. destruct (N.ltb_spec 0 x) as [Hx|]; [|intros [= <-]; auto]. intros H. rewrite !lists_iff.
  destruct (decide (u = t)) as [->|Hne].
  - destruct (ac_legacy a !! t) eqn:E; [eauto|]. bnd H y Hy. rewrite Hy. eauto.
  - destruct (ac_legacy a !! t); [bnd H z Hz; injection H as <-; cbn; rewrite lookup_insert_ne, lookup_delete_ne by congruence; auto|].
    bnd H y Hy. bnd H z Hz. injection H as <-. cbn. rewrite lookup_insert_ne by congruence. auto.
Qed.
Lemma lists_withdraw_from a t x a' : ac_withdraw a t x = Some a' -> 0 < x -> lists a t.
Proof.
  unfold ac_withdraw. intros H Hx. apply N.ltb_lt in Hx. rewrite Hx in H. rewrite lists_iff.
  destruct (ac_legacy a !! t); [eauto|]. bnd H y Hy. rewrite Hy. eauto.
Qed.
Lemma lists_withdraw_all ts : forall xs a a' u, ac_withdraw_all a ts xs = Some a' -> lists a' u -> lists a u.
Proof.
  induction ts as [|t ts IH]; intros xs a a' u H Hu; cbn [ac_withdraw_all] in H; [now injection H as <-|].
  destruct xs; [done|]. bnd H b Hb. eapply lists_withdraw; [exact Hb|]. eapply IH; eauto.
Qed.
Lemma lists_deposit_all ts : forall xs a a' u, ac_deposit_all a ts xs = Some a' -> lists a' u -> lists a u \/ u ∈ ts.
Proof.
  induction ts as [|t ts IH]; intros xs a a' u H Hu; cbn [ac_deposit_all] in H; [injection H as <-; auto|].
  destruct xs; [done|]. bnd H b Hb. destruct (IH _ _ _ _ H Hu) as [G|G]; [|right; now right].
  destruct (lists_deposit _ _ _ _ _ Hb G) as [G'|[_ ->]]; [auto|right; left].
Qed.
Lemma lists_deposit_list l : forall a a' u, ac_deposit_list a l = Some a' -> lists a' u -> lists a u \/ u ∈ l.*1.
Proof.
  induction l as [|[t x] l IH]; intros a a' u H Hu; cbn [ac_deposit_list] in H; [injection H as <-; auto|].
  bnd H b Hb. cbn [fmap list_fmap fst]. destruct (IH _ _ _ H Hu) as [G|G]; [|right; now right].
  destruct (lists_deposit _ _ _ _ _ Hb G) as [G'|[_ ->]]; [auto|right; left].
Qed.
Lemma lists_register ts : forall a u, lists (ac_register a ts) u -> lists a u \/ u ∈ ts.
Proof.
  induction ts as [|t ts IH]; intros a u H; cbn [ac_register] in H; [auto|].
  apply IH in H as [H|H]; [|right; now right]. destruct (ac_get_balance a t) eqn:E; [auto|].
  destruct (decide (u = t)) as [->|Hne]; [right; left|]. left. rewrite lists_iff in *. cbn in H. rewrite lookup_insert_ne in H by congruence. auto.
Qed.
Lemma lists_unregister a t a' u : ac_unregister a t = Some a' -> lists a' u -> lists a u.
Proof.
  unfold ac_unregister. intros H. grd H. grd H. injection H as <-. rewrite !lists_iff. cbn. intros [[y Hy]|[y Hy]]; apply lookup_delete_Some in Hy as [_ Hy]; eauto.
Qed.
Lemma lists_unregister_all ts : forall a a' u, ac_unregister_all a ts = Some a' -> lists a' u -> lists a u.
Proof.
  induction ts as [|t ts IH]; intros a a' u H Hu; cbn [ac_unregister_all] in H; [now injection H as <-|].
  bnd H b Hb. eapply lists_unregister; [exact Hb|]. eapply IH; eauto.
Qed.
Lemma lists_shadow a pid act x a' u : ac_update_shadow a pid act x = Some a' -> lists a' u -> lists a u.
Proof. unfold ac_update_shadow. intros H. bnd H r Hr. injection H as <-. auto. Qed.
Lemma lists_near a n u : lists (ac_set_near a n) u -> lists a u.
Proof. auto. Qed.
Lemma lists_check a t x a' b u : ac_deposit_with_storage_check a t x = Some (a', b) -> lists a' u -> lists a u \/ u = t.
Proof.
  unfold ac_deposit_with_storage_check. intros H. destruct (decide (u = t)) as [->|Hne]; [auto|]. rewrite !lists_iff.
  destruct (ac_tokens a !! t); [bnd H z Hz; injection H as <- <-; cbn; rewrite lookup_insert_ne by congruence; auto|].
  destruct (ac_legacy a !! t); [bnd H z Hz; injection H as <- <-; cbn; rewrite lookup_insert_ne by congruence; auto|].
  destruct (_ <=? _); injection H as <- <-; [|auto]. cbn. rewrite lookup_insert_ne by congruence. auto.
Qed.
Lemma lists_new u : ~ lists ac_new u.
Proof. rewrite lists_iff. cbn. rewrite !lookup_empty. intros [[? ?]|[? ?]]; done. Qed.
Lemma lists_take l : forall a va a' va' u, va_take a va l = Some (a', va') ->
  (lists a' u -> lists a u) /\ (lists va' u -> lists va u \/ lists a u).
Proof.
  induction l as [|[t x] l IH]; intros a va a' va' u H; cbn [va_take] in H; [injection H as <- <-; auto|].
  bnd H b Hb. bnd H d Hd. destruct (IH _ _ _ _ u H) as [H1 H2]. split.
  - intros G. eapply lists_withdraw; eauto.
  - intros G. destruct (H2 G) as [G1|G1]; [|right; eapply lists_withdraw; eauto].
    destruct (lists_deposit _ _ _ _ _ Hd G1) as [G2|[Hx ->]]; [auto|]. right. eapply lists_withdraw_from; eauto.
Qed.

(** ** Chains of actions *)
Lemma lists_action c e acc r a prev c' acc' x u : ex_exec_action c e acc r a prev = Some (c', acc', x) -> lists acc' u -> lists acc u \/ u = act_out a.
Proof.
  unfold ex_exec_action. intros H. destruct a.
  - bnd H amt Hamt. bnd H acc1 H1. bnd H q Hq. destruct q as [c1 o]. bnd H acc2 H2. injection H as <- <- <-. intros G.
    destruct (lists_deposit _ _ _ _ _ H2 G) as [G'|[_ ->]]; [left; eapply lists_withdraw; eauto|auto].
  - bnd H amt Hamt. bnd H q Hq. destruct q as [c1 o]. injection H as <- <- <-. auto.
Qed.
Lemma act_tokens_cons a l u : u = act_out a \/ u ∈ act_tokens l -> u ∈ act_tokens (a :: l).
Proof. unfold act_tokens. cbn [flat_map app]. intros [->|H]; [right; left|right; now right]. Qed.
Lemma lists_swap_loop e r l u : forall c acc prev c' acc' res, ex_swap_loop c e acc r l prev = Some (c', acc', res) -> lists acc' u -> lists acc u \/ u ∈ act_tokens l.
Proof.
  induction l as [|a l IH]; intros c acc prev c' acc' res H G; cbn [ex_swap_loop] in H; [injection H as <- <- <-; auto|].
  bnd H q Hq. destruct q as [[c1 acc1] x]. destruct (IH _ _ _ _ _ _ H G) as [G1|G1]; [|right; apply act_tokens_cons; auto].
  destruct (lists_action _ _ _ _ _ _ _ _ _ _ Hq G1) as [G2|G2]; [auto|right; apply act_tokens_cons; auto].
Qed.
Lemma lists_finalize acc t p acc' u : ex_finalize acc t p = Some acc' -> lists acc' u -> lists acc u.
Proof. unfold ex_finalize. destruct t; [|now intros [= <-]]. intros H. bnd H x Hx. eapply lists_withdraw; eauto. Qed.
Lemma lists_output_loop e r l u : forall c acc t prev c' acc' res, ex_output_loop c e acc r l t prev = Some (c', acc', res) -> lists acc' u -> lists acc u \/ u ∈ act_tokens l.
Proof.
  induction l as [|a l IH]; intros c acc t prev c' acc' res H G; cbn [ex_output_loop] in H.
  - bnd H acc1 H1. injection H as <- <- <-. left. eapply lists_finalize; eauto.
  - bnd H acc1 H1. bnd H q Hq. destruct q as [[c1 acc2] x]. destruct (IH _ _ _ _ _ _ _ H G) as [G1|G1]; [|right; apply act_tokens_cons; auto].
    destruct (lists_action _ _ _ _ _ _ _ _ _ _ Hq G1) as [G2|G2]; [|right; apply act_tokens_cons; auto].
    destruct a as [|pid ti [am|] to mx]; [done| |].
    + bnd H1 acc0 H0. destruct (lists_deposit _ _ _ _ _ H1 G2) as [G3|[_ ->]]; [left; eapply lists_finalize; eauto|right; apply act_tokens_cons; auto].
    + bnd H1 v Hv. grd H1. injection H1 as <-. auto.
Qed.
Lemma lists_execute c e acc r l prev skip c' acc' res u : ex_execute c e acc r l prev skip = Some (c', acc', res) -> lists acc' u -> lists acc u \/ u ∈ act_tokens l.
Proof.
  unfold ex_execute. intros H. grd H. grd H. bnd H a0 H0. bnd H q Hq. destruct q as [[c1 acc1] x]. bnd H v Hv. injection H as <- <- <-.
  destruct (is_swap a0); [eapply lists_swap_loop; eauto|eapply lists_output_loop; eauto].
Qed.
Lemma known_inv c acc ts u : known_tokens c acc ts = Some tt -> u ∈ ts -> lists acc u \/ ex_whitelisted c u = true.
Proof.
  unfold known_tokens. intros H Hu. apply ensure_Some in H. rewrite forallb_forall in H. specialize (H u (proj1 (elem_of_list_In _ _) Hu)).
  apply orb_true_iff in H as [H|H]; [|auto]. left. unfold lists. destruct (ac_get_balance acc u); [eauto|done].
Qed.
Lemma va_out_lists va u : u ∈ (va_out va).*1 -> lists va u.
Proof.
  intros H. apply elem_of_list_fmap in H as ([t x] & -> & H). unfold va_out in H. apply elem_of_list_filter in H as [_ H].
  apply elem_of_map_to_list in H. rewrite lists_iff. cbn. rewrite H. eauto.
Qed.
Lemma tc_add_keys l u : forall m m', tc_add_all m l = Some m' -> is_Some (m' !! u) -> is_Some (m !! u) \/ u ∈ l.*1.
Proof.
  induction l as [|[t x] l IH]; intros m m' H G; cbn [tc_add_all] in H; [injection H as <-; auto|].
  bnd H m1 H1. cbn [fmap list_fmap fst]. destruct (IH _ _ H G) as [G1|G1]; [|right; now right].
  destruct (decide (u = t)) as [->|Hne]; [right; left|]. left. unfold tc_add in H1.
  destruct (m !! t); [bnd H1 z Hz|]; injection H1 as <-; now rewrite lookup_insert_ne in G1 by congruence.
Qed.
Lemma tc_sub_keys l u : forall m m', tc_sub_all m l = Some m' -> is_Some (m' !! u) -> is_Some (m !! u).
Proof.
  induction l as [|[t x] l IH]; intros m m' H G; cbn [tc_sub_all] in H; [now injection H as <-|].
  bnd H m1 H1. specialize (IH _ _ H G). unfold tc_sub in H1. destruct (x =? 0); [now injection H1 as <-|].
  bnd H1 y Hy. bnd H1 z Hz. injection H1 as <-. destruct (decide (u = t)) as [->|Hne]; [rewrite Hy; eauto|].
  destruct (0 <? z); [now rewrite lookup_insert_ne in IH by congruence|now rewrite lookup_delete_ne in IH by congruence].
Qed.
Lemma zap_keys e s l u : forall c m c' m', ex_zap_loop c e s m l = Some (c', m') -> is_Some (m' !! u) -> is_Some (m !! u).
Proof.
  induction l as [|i l IH]; intros c m c' m' H G; cbn [ex_zap_loop] in H; [now injection H as <- <-|].
  bnd H q Hq. destruct q as [c1 m1]. specialize (IH _ _ _ _ H G).
  apply ex_zap_one_inv in Hq as (p & p' & am & sh & _ & _ & _ & Hs & _). eapply tc_sub_keys; eauto.
Qed.
Lemma direct_keys c e t x r l skip c' outs u : ex_direct c e t x r l skip = Some (c', outs) -> u ∈ outs.*1 -> u = t \/ u ∈ act_tokens l.
Proof.
  intros H G. apply ex_direct_inv in H as (va & prev & va' & res & Hd & He & ->). apply va_out_lists in G.
  destruct (lists_execute _ _ _ _ _ _ _ _ _ _ _ He G) as [G1|G1]; [|auto].
  destruct (lists_deposit _ _ _ _ _ Hd G1) as [G2|[_ ->]]; [now apply lists_new in G2|auto].
Qed.

(** ** All events *)
Lemma listed_put c a acc b t : listed (ex_put c a acc) b t -> a = b /\ lists acc t \/ listed c b t.
Proof.
  intros (q & Hq & Hl). rewrite ex_account_put in Hq. destruct (String.eqb_spec a b) as [->|].
  - injection Hq as <-. auto.
  - right. exists q. auto.
Qed.
Lemma listed_acc c a acc t : ex_account c a = Some acc -> lists acc t -> listed c a t.
Proof. intros. exists acc. auto. Qed.
Lemma listed_accounts c c' a t : ex_accounts c' = ex_accounts c -> listed c' a t -> listed c a t.
Proof. intros E (q & Hq & Hl). exists q. split; [|done]. unfold ex_account in *. now rewrite E in Hq. Qed.
Lemma pl_remove_tokens p a x mins v p' out : pl_remove_liquidity p a x mins v = Some (p', out) -> pl_tokens p' = pl_tokens p.
Proof.
  destruct p as [q|q]; cbn [pl_remove_liquidity]; intros H; bnd H z Hz; destruct z as [q' s']; injection H as <- _.
  - unfold sp_remove_liquidity in Hz. bnd Hz u Hu. bnd Hz m Hm. bnd Hz z Hz'. destruct z as [am r]. bnd Hz y Hy. injection Hz as <- _. done.
  - apply st_remove_shares_inv in Hz as (? & ? & _ & _ & _ & -> & _). done.
Qed.
Lemma own_known c e t acc ts : (e_attached e = 0 -> known_tokens c acc ts = Some tt) -> t ∈ ts -> lists acc t \/ 0 < e_attached e \/ ex_whitelisted c t = true.
Proof.
  intros H Ht. destruct (N.eq_dec (e_attached e) 0) as [Hz|Hz]; [|right; left; lia]. destruct (known_inv _ _ _ _ (H Hz) Ht); auto.
Qed.
Lemma call_listed c e x c' ps a t :
  ex_call c e x = Some (c', ps) -> listed c' a t -> listed c a t \/
  (e_caller e = a /\ (0 < e_attached e \/ ex_whitelisted c t = true)) \/ a = cf_owner (ex_cfg c) \/
  (sends x a t /\ listed c (e_caller e) t) \/
  (exists vic sid y mins pid p, x = CLiquidation a vic sid y mins /\ e_caller e = cf_burrow (ex_cfg c) /\ shadow_id_to_pool_id sid = Some pid /\
     ex_pool c pid = Some p /\ t ∈ pl_tokens p).
Proof.
  intros H G. destruct (is_settings x) eqn:Es; [apply settings_call in H as [(_ & _ & Ha & _) _]; [left; eapply listed_accounts; eauto|done]|].
  assert (Hva : match x with CExecuteVa use l r sk => e_attached e = 0 -> forall acc, ex_account c (e_caller e) = Some acc -> known_tokens c acc (act_tokens l) = Some tt | _ => True end).
  { destruct x; try exact I. intros Hz acc Hacc. cbn [ex_call] in H. apply quiet2_inv in H as (? & H & _). unfold ex_execute_in_va in H. grd H. grd H.
    rewrite Hacc in H. cbn [mbind option_bind] in H. bnd H u Hu. rewrite Hz in Hu. cbn [N.eqb] in Hu. now destruct u. }
  call_cases x Es H; try (left; eapply listed_accounts; [|exact G]; reflexivity).
  (* own calls that carry a deposit *)
  all: try (apply listed_put in G as [[<- _]|G]; [right; left; split; [done|left; lia]|left; eapply listed_accounts; [|exact G]; reflexivity]).
  (* the owner *)
  all: try (apply listed_put in G as [[<- _]|G]; [right; right; left; done|left; eapply listed_accounts; [|exact G]; reflexivity]).
  all: try (apply listed_put in G as [[<- _]|G]; [right; right; left; done|]; apply listed_put in G as [[<- _]|G]; [right; left; split; [done|left; lia]|left; eapply listed_accounts; [|exact G]; reflexivity]).
  1,3,4: apply listed_put in G as [[<- G]|G]; [|left; apply ex_execute_frame in Hx as (_ & _ & Ha & _); eapply listed_accounts; eauto];
    destruct (lists_execute _ _ _ _ _ _ _ _ _ _ _ Hx G) as [G1|G1]; [left; eapply listed_acc; eauto|];
    match goal with K : e_attached _ = 0 -> _ |- _ => destruct (own_known _ _ _ _ _ K G1) as [G2|G2] end; [left; eapply listed_acc; eauto|auto].
  { (* in a virtual account *)
    apply listed_put in G as [[<- G]|G]; [|left; apply ex_execute_frame in Hx as (_ & _ & Ha & _); eapply listed_accounts; eauto].
    match goal with K : va_take _ _ _ = Some _ |- _ => destruct (lists_take _ _ _ _ _ t K) as [T1 T2] end.
    assert (Hl : lists acc t -> listed c (e_caller e) t) by (intros; eapply listed_acc; eauto). subst res.
    match goal with K : ac_deposit_list _ _ = Some _ |- _ => destruct (lists_deposit_list _ _ _ _ K G) as [G1|G1] end; [auto|].
    apply va_out_lists in G1. destruct (lists_execute _ _ _ _ _ _ _ _ _ _ _ Hx G1) as [G2|G2].
    - destruct (T2 G2) as [G3|G3]; [now apply lists_new in G3|auto].
    - destruct (own_known c e t acc (act_tokens l)) as [G3|G3]; [intros Hz; apply Hva; auto|exact G2|auto|auto]. }
  1,2: (* transfers of deposits *)
    apply listed_put in G as [[<- G]|G];
    [match goal with K : ac_deposit _ _ _ = Some _ |- _ => destruct (lists_deposit _ _ _ _ _ K G) as [G1|[Hp ->]] end;
      [left; eapply listed_acc; eauto|right; right; right; left; split; [done|]; eapply listed_acc; [eauto|]; eapply lists_withdraw_from; eauto]
    |apply listed_put in G as [[<- G]|G]; [|auto]; left; eapply listed_acc; [eauto|]; eapply lists_withdraw; eauto].
  - (* shadow records *)
    apply listed_put in G as [[<- G]|G]; [|auto]. left. eapply listed_acc; [eauto|]. eapply lists_shadow; eauto.
  - (* liquidation *)
    assert (Hv : listed (ex_put c victim (ac_set_near va2 (ac_near va2 + e_freed e))) a t -> listed c a t).
    { intros G0. apply listed_put in G0 as [[<- G0]|G0]; [|exact G0]. eapply listed_acc; [eauto|].
      apply lists_near in G0. eapply lists_shadow; [eauto|]. destruct (0 <? seed); [eapply lists_shadow; eauto|].
      match goal with K : Some va1 = Some va2 |- _ => injection K as -> end. exact G0. }
    apply listed_put in G as [[<- G]|G]; [|left; apply Hv; eapply listed_accounts; [|exact G]; reflexivity].
    match goal with K : ac_deposit_all la _ _ = Some _ |- _ => destruct (lists_deposit_all _ _ _ _ _ K G) as [G1|G1] end.
    + left. apply Hv. eapply listed_acc; eauto.
    + right; right; right; right. exists victim, sid, amount, mins, pid, p. split_and!; auto. 
      match goal with K : pl_remove_liquidity p _ _ _ _ = Some _ |- _ => apply pl_remove_tokens in K as <- end. exact G1.
  - apply listed_put in G as [[<- G]|G]; [|auto]; apply lists_near in G; unfold ex_account_or_new in G;
    destruct (ex_account c _) eqn:Ea; cbn [default from_option] in G; unfold id in G; [left; eapply listed_acc; eauto|now apply lists_new in G].
  - apply listed_put in G as [[<- G]|G]; [|auto]; apply lists_near in G; unfold ex_account_or_new in G;
    destruct (ex_account c _) eqn:Ea; cbn [default from_option] in G; unfold id in G; [left; eapply listed_acc; eauto|now apply lists_new in G].
  - destruct G as (acc' & Ha & Hl). left. exists acc'. split; [|done]. unfold ex_account in Ha |- *. ex_cbn.
    destruct (decide (e_caller e = a)) as [<-|Hne]; [now rewrite lookup_delete in Ha|now rewrite lookup_delete_ne in Ha].
Qed.
Lemma transfer_listed c e s x m c' ps a t :
  ex_ft_on_transfer c e s x m = Some (c', ps) -> listed c' a t -> listed c a t \/ a = s /\ (t = e_caller e \/ ex_whitelisted c t = true).
Proof.
  unfold ex_ft_on_transfer. cbv zeta. intros H G. grd H. grd H. destruct m.
  - grd H. bnd H c1 Hc1. injection H as <- <-. apply ex_deposit_inv in Hc1 as (acc & acc' & Ha & _ & Hd & _ & ->).
    apply listed_put in G as [[<- G]|G]; [|auto]. destruct (lists_deposit _ _ _ _ _ Hd G) as [K|[_ ->]]; [left; eapply listed_acc; eauto|auto].
  - grd H. grd H. grd H. bnd H q Hq. destruct q as [c1 outs]. grd H. injection H as <- <-. apply ex_direct_frame in Hq as (_ & _ & A & _).
    left. eapply listed_accounts; eauto.
  - bnd H c1 Hc1. injection H as <- <-. apply ex_hot_zap_inv in Hc1 as (acc & ts & c1' & outs & mm & c2 & m' & acc' & _ & _ & Ha & Hts & Hk & _ & Hd & Hm & Hz & _ & Hdl & _ & ->).
    apply listed_put in G as [[<- G]|G].
    + destruct (lists_deposit_list _ _ _ _ Hdl G) as [K|K]; [apply lists_near in K; left; eapply listed_acc; eauto|].
      apply elem_of_list_fmap in K as ([u y] & -> & K0). apply elem_of_map_to_list in K0. cbn [fst] in *.
      assert (K : is_Some (mm !! u)) by (eapply zap_keys; eauto). destruct (tc_add_keys _ _ _ _ Hm K) as [[? K1]|K1]; [now rewrite lookup_empty in K1|].
      destruct (direct_keys _ _ _ _ _ _ _ _ _ _ Hd K1) as [->|K2]; [auto|].
      destruct (known_inv _ _ _ u Hk) as [K3|K3]; [apply elem_of_app; auto|left; eapply listed_acc; eauto|auto].
    + left. apply ex_direct_frame in Hd as (_ & _ & A & _). apply ex_zap_loop_frame in Hz as (_ & _ & B & _). eapply listed_accounts; [|exact G]. congruence.
Qed.
Lemma fail_listed c e s t x c' a u : ex_handle_fail c e s t x = Some c' -> listed c' a u -> listed c a u \/ (a = s /\ u = t) \/ a = cf_owner (ex_cfg c).
Proof.
  intros H G. apply ex_handle_fail_inv in H. destruct H as [acc acc' Hacc Hd|m Hd Hsp Hm|acc Hd Hsp Hdep].
  - apply listed_put in G as [[<- G]|G]; [|auto]. destruct (lists_check _ _ _ _ _ _ Hd G) as [G1| ->]; [left; eapply listed_acc; eauto|auto].
  - left. exact G.
  - apply listed_put in G as [[<- G]|G]; auto.
Qed.

(** Every event that puts a token on an account's list has one of the reasons of [may_list]. *)
Theorem C101_reasons w ev w' a t :
  w_step w ev = Some w' -> ~ listed (w_ex w) a t -> listed (w_ex w') a t -> may_list w ev a t.
Proof.
  intros H Hn G. unfold w_step in H. cbv zeta in H. destruct ev.
  - bnd H u Hu. bnd H u' Hu'. bnd H q Hq'. destruct q as [c' ps]. injection H as <-.
    destruct (w_queue_ex w c' (w_hold w) (w_flights w) ps (e_now e)) as (E & _). rewrite E in G.
    destruct (call_listed _ _ _ _ _ _ _ Hq' G) as [K|[[Hc K]|[->|[[Hs K]|(vic & sid & y & mins & pid & p & -> & Hc & Hp & Hpl & Ht)]]]].
    + done.
    + now apply ml_own.
    + apply ml_owner.
    + now apply ml_sent.
    + eapply ml_seized; eauto.
  - bnd H u Hu. injection H as <-. done.
  - bnd H u Hu. bnd H f Hf. destruct f as [t' s x msg| |]; try discriminate H.
    bnd H u' Hu'. apply ensure_Some, String.eqb_eq in Hu'. destruct (ex_ft_on_transfer _ _ _ _ _) as [[c' ps]|] eqn:E.
    + injection H as <-. destruct (w_queue_ex w c' (w_hold w) (delete id (w_flights w)) ps (e_now e)) as (E' & _). rewrite E' in G.
      destruct (transfer_listed _ _ _ _ _ _ _ _ _ E G) as [K|[-> K]]; [done|]. eapply ml_arrived; [exact Hf|]. now rewrite <- Hu'.
    + injection H as <-. done.
  - bnd H u Hu. injection H as <-. done.
  - bnd H f Hf. destruct f as [|p|]; try discriminate H.
    destruct p; try discriminate H; bnd H u Hu; injection H as <-; done.
  - bnd H u Hu. bnd H f Hf. destruct f as [| |p ok]; try discriminate H.
    destruct p; try discriminate H; injection H as <-; cbn [w_ex] in G.
    1,2: destruct (ex_callback_withdraw _ _ _ _ _ _) eqn:E; cbn in G; [|done]; unfold ex_callback_withdraw in E; destruct ok; [injection E as <-; done|];
      destruct (fail_listed _ _ _ _ _ _ _ _ E G) as [K|[[-> ->]| ->]]; [done|eapply ml_back; [exact Hf|done]|apply ml_owner].
    destruct (ex_callback_near _ _ _ _ _) as [q|] eqn:E; cbn in G; [|done]. unfold ex_callback_near in E. destruct ok; [injection E as <-; done|].
    bnd E t' Ht. bnd E c1 H1. injection E as <-. cbn [fst] in G.
    destruct (fail_listed _ _ _ _ _ _ _ _ H1 G) as [K|[[-> ->]| ->]]; [done|eapply ml_back; [exact Hf|done]|apply ml_owner].
  - bnd H u Hu. bnd H f Hf. destruct f as [|p|]; try discriminate H.
    destruct p; try discriminate H; injection H as <-; cbn [w_ex] in G.
    destruct (ex_mft_resolve _ _ _ _ _ _) eqn:E; cbn in G; [|done].
    apply ex_mft_resolve_inv in E as [[-> _]|(bal & _ & _ & _ & E)]; [done|].
    apply ex_mft_transfer_inv in E as (_ & _ & E). destruct (mft_pool_of token_id).
    + destruct E as (p & p' & _ & _ & _ & _ & ->). destruct Hn. eapply listed_accounts; [|exact G]. reflexivity.
    + destruct E as (sa & sa' & ra & ra' & Hsa & Hra & Hw & Hd & _ & _ & ->). apply listed_put in G as [[<- G]|G].
      * destruct (lists_deposit _ _ _ _ _ Hd G) as [G1|[Hp ->]]; [destruct Hn; eapply listed_acc; eauto|].
        eapply ml_refused; [exact Hf|eapply listed_acc; [exact Hsa|eapply lists_withdraw_from; eauto]|].
        destruct (ex_accounts (w_ex w) !! sender) eqn:Ea; [auto|right; split; [done|]]. unfold ex_account. now rewrite Ea.
      * destruct Hn. apply listed_put in G as [[<- G]|G]; [|exact G]. eapply listed_acc; [exact Hsa|]. eapply lists_withdraw; eauto.
  - bnd H u Hu. bnd H f Hf. destruct f as [|p|]; try discriminate H.
    destruct p; try discriminate H; injection H as <-; cbn [w_ex] in G.
    destruct (ex_callback_shadow _ _ _ _ _ _ _ _) as [[c' ps]|] eqn:E; cbn in G; [|done]. destruct Hn.
    apply ex_callback_shadow_inv in E as [(_ & _ & -> & ->)|[(_ & _ & -> & acc & acc1 & Hacc & Hsh & Hcov & ->)|(_ & acc & acc1 & Hacc & Hsh & Hcov & -> & ->)]]; [done|..];
      (apply listed_put in G as [[<- G]|G]; [|exact G]); eapply listed_acc; eauto.
    + apply lists_near in G. eapply lists_shadow; eauto.
    + destruct act; try (eapply lists_shadow; eauto; fail); injection Hsh as ->; exact G.
  - bnd H u Hu. bnd H c' Hc'. injection H as <-. destruct Hn. unfold ex_oracle in Hc'. bnd Hc' r Hr. injection Hc' as <-. exact G.
  - bnd H u Hu. bnd H q Hq'. destruct q as [c' ps]. injection H as <-.
    destruct (w_queue_ex w c' (w_hold w) (w_flights w) ps (e_now e)) as (E & _). rewrite E in G.
    destruct (transfer_listed _ _ _ _ _ _ _ _ _ Hq' G) as [K|[-> K]]; [done|]. now apply ml_claimed.
  - injection H as <-. done.
Qed.
Print Assumptions C101_reasons.

(** ** An account with room for one token, and somebody else's worthless token *)
Definition one_room : N := (INIT_ACCOUNT_STORAGE + TOKEN_ENTRY_STORAGE) * STORAGE_BYTE_COST.
Definition spam_setup : list Event :=
  [ EvCall (env 120 "vi" one_room) (CStorageDeposit None false);
    EvCall (env 121 "ev" (10 ^ 24)) (CStorageDeposit None false);
    EvCall (env 122 "ev" 1) (CRegisterTokens ["spam"]);
    EvArrive "spam" "ev" 5 MsgDeposit; EvNotify 5 (env 123 "spam" 0) ].
Definition w_spam0 : World := default w_live (w_run w_live spam_setup).
Lemma spam_setup_runs : w_run w_live spam_setup = Some w_spam0.
Proof. apply run_default. vm_compute. reflexivity. Qed.
Definition w_spam1 : World := default w_live (w_step w_spam0 (EvCall (env 124 "ev" 1) (CMftTransfer "spam" "vi" 1))).
Lemma spam_step : w_step w_spam0 (EvCall (env 124 "ev" 1) (CMftTransfer "spam" "vi" 1)) = Some w_spam1.
Proof. apply run_default. vm_compute. reflexivity. Qed.
Lemma not_listed c a t acc : ex_account c a = Some acc -> ac_get_balance acc t = None -> ~ listed c a t.
Proof. intros H G (acc' & H' & [x Hx]). congruence. Qed.
Definition deposit_taken (w : World) : bool := done_ (ex_ft_on_transfer (w_ex w) (env 125 "a" 0) "vi" 7 MsgDeposit).
(** Somebody else puts a token that nobody approved on [vi]'s list, and the storage [vi] paid for a token of
    their choice is gone: a deposit of the approved token [a] that was possible before is refused. *)
Theorem C101_holder_decides_refuted :
  exists w0 l1 w1 l w ev w', w_run w0 l1 = Some w1 /\ w_run w1 l = Some w /\ w_step w ev = Some w' /\ ex_new "ref" "own" "farm" "bur" 20 5 = Some (w_ex w0) /\
    (exists e x, ev = EvCall e x /\ e_caller e = "ev" /\ e_attached e = 1) /\
    "vi" <> cf_owner (ex_cfg (w_ex w)) /\ ex_whitelisted (w_ex w) "spam" = false /\
    ~ listed (w_ex w) "vi" "spam" /\ listed (w_ex w') "vi" "spam" /\
    ex_whitelisted (w_ex w) "a" = true /\ deposit_taken w = true /\ deposit_taken w' = false.
Proof.
  exists w_fresh, ex_events, w_live, spam_setup, w_spam0, (EvCall (env 124 "ev" 1) (CMftTransfer "spam" "vi" 1)), w_spam1.
  split; [apply w_live_runs|]. split; [apply spam_setup_runs|]. split; [apply spam_step|]. split; [vm_compute; reflexivity|].
  split; [eauto|]. split; [vm_compute; discriminate|]. split; [vm_compute; reflexivity|].
  split; [apply not_listed with (acc := default ac_new (ex_account (w_ex w_spam0) "vi")); vm_compute; reflexivity|].
  split; [exists (default ac_new (ex_account (w_ex w_spam1) "vi")); split; [vm_compute; reflexivity|]; exists 1; vm_compute; reflexivity|].
  split; [vm_compute; reflexivity|]. split; vm_compute; reflexivity.
Qed.
Print Assumptions C101_holder_decides_refuted.
(** The same call is an instance of the theorem above. *)
Example C101_ex1 : may_list w_spam0 (EvCall (env 124 "ev" 1) (CMftTransfer "spam" "vi" 1)) "vi" "spam".
Proof.
  apply C101_reasons with (w' := w_spam1); [apply spam_step| |].
  - apply not_listed with (acc := default ac_new (ex_account (w_ex w_spam0) "vi")); vm_compute; reflexivity.
  - exists (default ac_new (ex_account (w_ex w_spam1) "vi")). split; [vm_compute; reflexivity|]. exists 1. vm_compute. reflexivity.
Qed.
