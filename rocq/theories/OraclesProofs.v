(** * Lemmas about price events and questions in flight (used by PropOracles) *)
From Verif Require Import Base BaseLemmas StableMath StablePool Rates SpecRates RatesProofs Oracles SpecOracles.

(** ** One price event *)
Definition told_now (s : RateState) (t : AccountId) (ev : rate_event) (price : N) : Prop :=
  (exists d0 dec pd p rest, ev = EvDegenAnswer t (DAnsPrices pd) /\ rs_degens s !! t = Some d0 /\
     dg_src d0 = DPriceOracle dec /\ (exists c, rs_price_cfg s = Some c) /\ pd_prices pd = (t, Some p) :: rest /\ quoted p dec price) \/
  (exists p, ev = EvDegenAnswer t (DAnsPyth p) /\ price = scaled_pyth p) \/
  (exists decs pd p dec, ev = EvBatchPrices decs pd /\ (t, Some p) ∈ pd_prices pd /\ decs !! t = Some dec /\
     quoted p dec price) \/
  (exists ids prices i ts p, ev = EvBatchPyth ids prices /\ (i, ts) ∈ ids /\ t ∈ ts /\ prices !! i = Some p /\
     price = scaled_pyth p).

Lemma degen_step s now ev s' t d' price at_ :
  (forall u d, rs_degens s !! u = Some d -> dg_token d = u) ->
  rate_exec s now ev = Some s' -> rs_degens s' !! t = Some d' -> dg_info d' = Some (price, at_) ->
  rs_degens s !! t = Some d' \/ at_ = now /\ is_answer ev = true /\ told_now s t ev price.
Proof.
  intros Htoks H Hd Hi. unfold told_now.
  assert (Hsame : rs_degens s' = rs_degens s -> rs_degens s !! t = Some d') by (intros E; now rewrite <- E).
  destruct ev; cbn [rate_exec] in H.
  - left. unfold rs_register_rate in H. destruct (rs_rates s !! t0); [done|].
    apply bind_Some in H as (r0 & Hr0 & H). injection H as <-. auto.
  - left. injection H as <-. auto.
  - left. unfold rs_update_extra in H. apply bind_Some in H as (r0 & Hr0 & H).
    destruct (rt_kind r0); try done. apply bind_Some in H as ([] & Hv & H). injection H as <-. auto.
  - left. unfold rs_rate_callback in H. destruct (rs_rates s !! t0) as [r0|]; [|injection H as <-; auto].
    apply bind_Some in H as (r1 & Hr1 & H). injection H as <-. auto.
  - left. unfold rs_register_degen in H. destruct (rs_degens s !! t0); [done|]. injection H as <-.
    cbn in Hd. destruct (decide (t = t0)) as [<-|Hne].
    + rewrite lookup_insert in Hd. injection Hd as <-. done.
    + now rewrite lookup_insert_ne in Hd by congruence.
  - left. unfold rs_update_degen in H. apply bind_Some in H as (d0 & _ & H). injection H as <-.
    cbn in Hd. destruct (decide (t = t0)) as [<-|Hne].
    + rewrite lookup_insert in Hd. injection Hd as <-. done.
    + now rewrite lookup_insert_ne in Hd by congruence.
  - left. injection H as <-. cbn in Hd. now apply lookup_delete_Some in Hd as [_ Hd].
  - left. unfold rs_register_config in H. apply bind_Some in H as ([] & _ & H). injection H as <-. apply Hsame. now destruct c.
  - left. unfold rs_update_config in H. apply bind_Some in H as ([] & _ & H). injection H as <-. apply Hsame. now destruct c.
  - left. injection H as <-. apply Hsame. unfold rs_unregister_config. now repeat case_match.
  - unfold rs_degen_callback in H. apply bind_Some in H as (d0 & Hd0 & H). apply bind_Some in H as (d1 & Hd1 & H).
    injection H as <-. cbn in Hd. destruct (decide (t = t0)) as [<-|Hne].
    2: { left. now rewrite lookup_insert_ne in Hd by congruence. }
    right. rewrite lookup_insert in Hd. injection Hd as ->. pose proof (Htoks _ _ Hd0) as Htok.
    unfold degen_set_price in Hd1. destruct (dg_src d0) as [dec|i] eqn:Hsrc, a as [pd|p]; try done.
    + apply bind_Some in Hd1 as (cfg & Hcfg & Hd1). apply bind_Some in Hd1 as ([] & Hv & Hd1).
      apply bind_Some in Hd1 as ([u pr] & H0 & Hd1). apply bind_Some in Hd1 as ([] & He & Hd1).
      apply ensure_Some in He. apply String.eqb_eq in He. rewrite Htok in He. subst u.
      apply bind_Some in Hd1 as (tp & -> & Hd1). apply bind_Some in Hd1 as (pr & Hp & Hd1).
      apply price_oracle_value_quoted in Hp. injection Hd1 as <-. cbn in Hi. injection Hi as -> <-.
      split_and!; [done|done|]. left.
      destruct (pd_prices pd) as [|y rest] eqn:Hpd; [done|]. cbn in H0. injection H0 as ->.
      exists d0, dec, pd, tp, rest. split_and!; eauto.
    + apply bind_Some in Hd1 as (cfg & Hcfg & Hd1). apply bind_Some in Hd1 as ([] & Hv & Hd1).
      apply bind_Some in Hd1 as (v & Hvv & Hd1). apply bind_Some in Hd1 as ([] & Ev & Hd1).
      apply ensure_Some in Ev. subst v. apply pyth_valid_Some in Hvv as [Hpos Hw].
      apply bind_Some in Hd1 as (x & Hx & Hd1). apply pyth_value_Some in Hx; [|done]. subst x.
      apply bind_Some in Hd1 as (pr & Hp & Hd1). apply fit_Some in Hp as [-> _]. injection Hd1 as <-.
      cbn in Hi. injection Hi as <- <-. split_and!; [done|done|]. right; left. eauto.
  - unfold rs_batch_price_callback in H. apply bind_Some in H as (c & Hc & H).
    apply bind_Some in H as ([] & Hv & H).
    destruct (rs_batch_prices_degens _ _ _ _ _ _ _ H Hd) as (dz & Hd0 & Htok & Hor).
    destruct Hor as [->|(p & dec & pr & Hin & Hdec & Hq & Hi')]; [auto|].
    rewrite Hi in Hi'. injection Hi' as <- <-. right. split_and!; [done|done|].
    right; right; left. eauto 10.
  - unfold rs_batch_pyth_callback in H. apply bind_Some in H as (c & Hc & H).
    destruct (rs_batch_pyth_degens _ _ _ _ _ _ _ _ H Hd) as (dz & Hd0 & Htok & Hor).
    destruct Hor as [->|(i & ts & p & Hin & Hint & Hp & Hpos & Hw & Hi')]; [auto|].
    rewrite Hi in Hi'. injection Hi' as -> <-. right. split_and!; [done|done|].
    right; right; right. eauto 10.
Qed.

Lemma rate_step s now ev s' t r' :
  (forall u r, rs_rates s !! u = Some r -> rt_contract r = u /\ match rt_kind r with RSfrax i => sfrax_valid i = true | _ => True end) ->
  rate_exec s now ev = Some s' -> rs_rates s' !! t = Some r' ->
  (exists r, rs_rates s !! t = Some r /\ rt_rate r' = rt_rate r /\ rt_at r' = rt_at r) \/
  (rt_rate r' = 10 ^ 24 /\ rt_at r' = 0) \/
  (rt_at r' = now /\ exists r a, ev = EvRateAnswer t a /\ rs_rates s !! t = Some r /\
     rate_set now r a = Some r' /\ good_rate_answer t a now (rt_rate r')).
Proof.
  intros Hok H Hr.
  assert (Hsame : rs_rates s' = rs_rates s -> exists r, rs_rates s !! t = Some r /\ rt_rate r' = rt_rate r /\ rt_at r' = rt_at r).
  { intros E. rewrite E in Hr. eauto. }
  destruct ev; cbn [rate_exec] in H.
  - unfold rs_register_rate in H. destruct (rs_rates s !! t0) eqn:Ht0; [done|].
    apply bind_Some in H as (r0 & Hr0 & H). injection H as <-. cbn [rs_rates rs_set_rates] in Hr.
    destruct (decide (t = t0)) as [<-|Hne].
    + right; left. rewrite lookup_insert in Hr. injection Hr as <-. unfold rate_new in Hr0.
      apply bind_Some in Hr0 as ([] & Hv & Hr0). injection Hr0 as <-. done.
    + left. rewrite lookup_insert_ne in Hr by congruence. eauto.
  - left. injection H as <-. cbn in Hr. apply lookup_delete_Some in Hr as [_ Hr]. eauto.
  - left. unfold rs_update_extra in H. apply bind_Some in H as (r0 & Hr0 & H).
    destruct (rt_kind r0) eqn:Hk; try done. apply bind_Some in H as ([] & Hv & H).
    injection H as <-. cbn [rs_rates rs_set_rates] in Hr.
    destruct (decide (t = t0)) as [<-|Hne].
    + rewrite lookup_insert in Hr. injection Hr as <-. eauto.
    + rewrite lookup_insert_ne in Hr by congruence. eauto.
  - unfold rs_rate_callback in H. destruct (rs_rates s !! t0) as [r0|] eqn:Ht0.
    2: { injection H as <-. left; eauto. }
    apply bind_Some in H as (r1 & Hr1 & H). injection H as <-. cbn [rs_rates rs_set_rates] in Hr.
    destruct (decide (t = t0)) as [<-|Hne].
    + rewrite lookup_insert in Hr. injection Hr as <-. right; right. destruct (Hok _ _ Ht0) as (Hc & Hv).
      pose proof Hr1 as Hr2. apply rate_set_good in Hr1 as (Hk & Hat & Hcc & Hg); [|done]. rewrite Hc in Hg.
      split; [done|]. exists r0, a. auto.
    + left. rewrite lookup_insert_ne in Hr by congruence. eauto.
  - unfold rs_register_degen in H. destruct (rs_degens s !! t0); [done|]. injection H as <-. auto.
  - unfold rs_update_degen in H. apply bind_Some in H as (d & _ & H). injection H as <-. auto.
  - injection H as <-. auto.
  - unfold rs_register_config in H. apply bind_Some in H as ([] & _ & H). injection H as <-. left. apply Hsame. now destruct c.
  - unfold rs_update_config in H. apply bind_Some in H as ([] & _ & H). injection H as <-. left. apply Hsame. now destruct c.
  - injection H as <-. left. apply Hsame. unfold rs_unregister_config. now repeat case_match.
  - unfold rs_degen_callback in H. apply bind_Some in H as (d & _ & H). apply bind_Some in H as (d' & _ & H).
    injection H as <-. auto.
  - unfold rs_batch_price_callback in H. apply bind_Some in H as (c & _ & H). apply bind_Some in H as ([] & _ & H).
    apply rs_batch_prices_rates in H. left. apply Hsame, H.
  - unfold rs_batch_pyth_callback in H. apply bind_Some in H as (c & _ & H).
    apply rs_batch_pyth_rates in H. left. apply Hsame, H.
Qed.

(** ** Requests *)
Lemma split_degens_src s ts a b :
  rs_split_degens s ts = Some (a, b) ->
  (forall t dec, a !! t = Some dec -> exists d, rs_degens s !! t = Some d /\ dg_src d = DPriceOracle dec) /\
  (forall i t, (i, t) ∈ b -> exists d, rs_degens s !! t = Some d /\ dg_src d = DPyth i).
Proof.
  revert a b. induction ts as [|u ts IH]; intros a b H; cbn [rs_split_degens] in H.
  - injection H as <- <-. split; [intros ? ? ?; now rewrite lookup_empty in *|intros ? ? ?%elem_of_nil; done].
  - apply bind_Some in H as (d & Hd & H). apply bind_Some in H as ([a0 b0] & H0 & H).
    destruct (IH _ _ H0) as [IHa IHb]. destruct (dg_src d) as [dec|i] eqn:Hs; injection H as <- <-.
    + split; [|done]. intros t dec' Ht. destruct (decide (t = u)) as [->|Hne].
      * rewrite lookup_insert in Ht. injection Ht as <-. eauto.
      * rewrite lookup_insert_ne in Ht by congruence. auto.
    + split; [done|]. intros i' t [E|Hin]%elem_of_cons; [injection E as -> ->; eauto|auto].
Qed.

Lemma group_ids_in l i ts t : group_ids l !! i = Some ts -> t ∈ ts -> (i, t) ∈ l.
Proof.
  revert ts. induction l as [|[i' t'] l IH]; intros ts H Ht; cbn [group_ids] in H.
  - now rewrite lookup_empty in H.
  - destruct (decide (i = i')) as [->|Hne].
    + rewrite lookup_insert in H. injection H as <-. apply elem_of_cons in Ht as [->|Ht]; [left|right].
      destruct (group_ids l !! i') as [x|] eqn:Hx; cbn in Ht; [eauto|]. now apply elem_of_nil in Ht.
    + rewrite lookup_insert_ne in H by congruence. right. eauto.
Qed.

Lemma pyth_list_lookup m l i : pyth_list m l !! i = if decide (i ∈ l) then Some (m !! i) else None.
Proof.
  induction l as [|j l IH]; cbn [pyth_list].
  - rewrite lookup_empty. destruct (decide (i ∈ [])) as [H%elem_of_nil|]; done.
  - destruct (decide (i = j)) as [->|Hne].
    + rewrite lookup_insert. destruct (decide (j ∈ j :: l)) as [|H]; [done|]. exfalso. apply H. left.
    + rewrite lookup_insert_ne by congruence. rewrite IH.
      destruct (decide (i ∈ l)) as [H|H], (decide (i ∈ j :: l)) as [H'|H']; auto.
      * exfalso. apply H'. now right.
      * apply elem_of_cons in H' as [?|?]; done.
Qed.

(** ** Histories *)
Lemma o_hist_rates h w : o_hist h w ->
  exists r, rate_history r (ow_rates w) /\ forall x, x ∈ r -> exists e, (fst x, e) ∈ h /\
    match e with OOwner ev => ev = snd x | ODeliver _ => is_answer (snd x) = true | _ => False end.
Proof.
  induction 1 as [|h w now e w' Hh (r & Hr & Hin) Ht H].
  - exists []. split; [constructor|]. intros x Hx. now apply elem_of_nil in Hx.
  - assert (Hkeep : ow_rates w' = ow_rates w -> exists r, rate_history r (ow_rates w') /\ forall x, x ∈ r ->
      exists e', (fst x, e') ∈ (now, e) :: h /\
      match e' with OOwner ev => ev = snd x | ODeliver _ => is_answer (snd x) = true | _ => False end).
    { intros ->. exists r. split; [done|]. intros x Hx. destruct (Hin x Hx) as (e' & ? & ?). exists e'. split; [now right|done]. }
    assert (Hnew : forall ev, rate_exec (ow_rates w) now ev = Some (ow_rates w') ->
      match e with OOwner ev' => ev' = ev | ODeliver _ => is_answer ev = true | _ => False end ->
      exists r, rate_history r (ow_rates w') /\ forall x, x ∈ r ->
      exists e', (fst x, e') ∈ (now, e) :: h /\
      match e' with OOwner ev => ev = snd x | ODeliver _ => is_answer (snd x) = true | _ => False end).
    { intros ev Hev He. exists ((now, ev) :: r). split.
      - econstructor; eauto. apply Forall_forall. intros x Hx. destruct (Hin x Hx) as (e' & He' & _).
        rewrite Forall_forall in Ht. apply (Ht _ He').
      - intros x [->|Hx]%elem_of_cons; [exists e; split; [left|done]|].
        destruct (Hin x Hx) as (e' & ? & ?). exists e'. split; [now right|done]. }
    destruct e; cbn [o_exec] in H.
    + apply bind_Some in H as (m & _ & H). injection H as <-. auto.
    + apply bind_Some in H as (m & _ & H). injection H as <-. auto.
    + apply bind_Some in H as (m & _ & H). injection H as <-. auto.
    + apply bind_Some in H as (m & _ & H). injection H as <-. auto.
    + apply bind_Some in H as ([] & _ & H). apply bind_Some in H as (s & Hs & H). injection H as <-. eauto.
    + apply bind_Some in H as (m & _ & H). injection H as <-. auto.
    + apply bind_Some in H as (m & _ & H). injection H as <-. auto.
    + apply bind_Some in H as (m & _ & H). injection H as <-. auto.
    + apply bind_Some in H as (f & _ & H). destruct (snd f !! i) as [[a [g|]]|]; try done. injection H as <-. auto.
    + apply bind_Some in H as (f & _ & H). apply bind_Some in H as ([] & _ & H). injection H as <-.
      cbn [ow_rates ow_set_fl ow_set_rates] in *. destruct (flight_event f) as [ev|] eqn:Hev; [|auto].
      destruct (rate_exec (ow_rates w) now ev) as [s|] eqn:Hs; cbn [default from_option id] in *; [|auto].
      apply (Hnew ev Hs). unfold flight_event in Hev. repeat case_match; try done; injection Hev as <-; done.
Qed.

Lemma o_hist_tokens h w u d : o_hist h w -> rs_degens (ow_rates w) !! u = Some d -> dg_token d = u.
Proof. intros Hh Hd. apply o_hist_rates in Hh as (r & Hr & _). now apply (degens_provenance r _ Hr) in Hd as [? _]. Qed.
Lemma o_hist_contracts h w u r : o_hist h w -> rs_rates (ow_rates w) !! u = Some r ->
  rt_contract r = u /\ match rt_kind r with RSfrax i => sfrax_valid i = true | _ => True end.
Proof. intros Hh Hd. apply o_hist_rates in Hh as (x & Hr & _). now apply (rates_provenance x _ Hr) in Hd as (? & ? & _). Qed.

(** ** Flights *)
Definition asked (h : list (N * OEvent)) (f : Flight) (h0 : list (N * OEvent)) (w0 : OWorld) (q : N * OEvent) : Prop :=
  before h0 w0 q h /\ (exists rq, requests w0 (snd q) = Some rq /\ (fst f, (snd f).*1) ∈ rq) /\
  forall i a g, snd f !! i = Some (a, Some g) ->
    exists h1 w1 y, before h1 w1 y h /\ (q :: h0) `suffix_of` h1 /\ g = answer w1 (fst y) a.

Lemma asked_cons h f h0 w0 q x : asked h f h0 w0 q -> asked (x :: h) f h0 w0 q.
Proof.
  assert (Hb : forall h1 w1 y, before h1 w1 y h -> before h1 w1 y (x :: h)).
  { intros h1 w1 y [? ?]. split; [done|]. now apply suffix_cons_r. }
  intros (H1 & H2 & H3). split_and!; auto.
  intros i a g Hg. destruct (H3 i a g Hg) as (h1 & w1 & y & ? & ? & ?). eauto 10.
Qed.

Lemma flights_asked h w : o_hist h w -> forall j f, ow_fl w !! j = Some f -> exists h0 w0 q, asked h f h0 w0 q.
Proof.
  induction 1 as [|h w now e w' Hh IH Ht H]; intros j f Hj; [done|].
  assert (Hkeep : forall j', ow_fl w !! j' = Some f -> exists h0 w0 q, asked ((now, e) :: h) f h0 w0 q).
  { intros j' Hj'. destruct (IH _ _ Hj') as (h0 & w0 & q & Ha). exists h0, w0, q. now apply asked_cons. }
  assert (Hask : forall rq, requests w e = Some rq -> w' = ow_set_fl w (ow_fl w ++ (fresh_flight <$> rq)) ->
    exists h0 w0 q, asked ((now, e) :: h) f h0 w0 q).
  { intros rq Hrq ->. cbn [ow_fl ow_set_fl] in Hj. apply lookup_app_Some in Hj as [Hj|[_ Hj]]; [eauto|].
    apply list_lookup_fmap_Some in Hj as (x & Hx & ->). exists h, w, (now, e). split_and!.
    - split; [done|]. reflexivity.
    - exists rq. split; [done|]. cbn. rewrite <- list_fmap_compose.
      replace (fst ∘ (fun a : Ask => (a, @None Got)) <$> snd x) with (snd x).
      + destruct x. now apply elem_of_list_lookup_2 in Hx.
      + symmetry. etransitivity; [|apply list_fmap_id]. apply list_fmap_ext. done.
    - intros i a g Hg. cbn in Hg. apply list_lookup_fmap_Some in Hg as (? & ? & E). done. }
  destruct e; cbn [o_exec] in H.
  - apply bind_Some in H as (m & _ & H). injection H as <-. eauto.
  - apply bind_Some in H as (m & _ & H). injection H as <-. eauto.
  - apply bind_Some in H as (m & _ & H). injection H as <-. eauto.
  - apply bind_Some in H as (m & _ & H). injection H as <-. eauto.
  - apply bind_Some in H as ([] & _ & H). apply bind_Some in H as (s & Hs & H). injection H as <-. eauto.
  - apply bind_Some in H as (rq & Hrq & H). injection H as <-. eauto.
  - apply bind_Some in H as (rq & Hrq & H). injection H as <-. eauto.
  - apply bind_Some in H as (rq & Hrq & H). injection H as <-. eauto.
  - apply bind_Some in H as (f0 & Hf0 & H). destruct (snd f0 !! i) as [[a [g|]]|] eqn:Hi; try done.
    injection H as <-. cbn [ow_fl ow_set_fl] in Hj.
    destruct (decide (j = j0)) as [->|Hne].
    2: { rewrite list_lookup_insert_ne in Hj by congruence. eauto. }
    rewrite list_lookup_insert in Hj by (eapply lookup_lt_Some; eauto). injection Hj as <-.
    destruct (IH _ _ Hf0) as (h0 & w0 & q & Ha). exists h0, w0, q.
    pose proof (asked_cons _ _ _ _ _ (now, OAnswer j0 i) Ha) as (H1 & (rq & Hrq & Hin) & H3).
    split_and!; [done| |].
    + exists rq. split; [done|]. cbn [fst snd]. rewrite list_fmap_insert. cbn [fst].
      rewrite list_insert_id; [done|]. rewrite list_lookup_fmap, Hi. done.
    + cbn [snd]. intros i' a' g' Hg'. destruct (decide (i' = i)) as [->|Hne].
      * rewrite list_lookup_insert in Hg' by (eapply lookup_lt_Some; eauto). injection Hg' as <- <-.
        exists h, w, (now, OAnswer j0 i). split_and!; [split; [done|reflexivity]|apply Ha|done].
      * rewrite list_lookup_insert_ne in Hg' by congruence. eauto.
  - apply bind_Some in H as (f0 & Hf0 & H). apply bind_Some in H as ([] & _ & H). injection H as <-.
    cbn [ow_fl ow_set_fl] in Hj. apply elem_of_list_lookup_2 in Hj.
    assert (Hin : f ∈ ow_fl w).
    { apply elem_of_list_lookup in Hj as (n & Hn). destruct (decide (n < j0)%nat).
      - rewrite lookup_delete_lt in Hn by done. eapply elem_of_list_lookup_2; eauto.
      - rewrite lookup_delete_ge in Hn by lia. eapply elem_of_list_lookup_2; eauto. }
    apply elem_of_list_lookup in Hin as (n & Hn). eauto.
Qed.

(** ** Where the stored prices come from *)
(** the delivery that stored a price *)
Lemma degen_delivered h w t d price at_ :
  o_hist h w -> rs_degens (ow_rates w) !! t = Some d -> dg_info d = Some (price, at_) ->
  exists h2 w2 j f ev, before h2 w2 (at_, ODeliver j) h /\ ow_fl w2 !! j = Some f /\
    flight_event f = Some ev /\ told_now (ow_rates w2) t ev price.
Proof.
  intros Hh. revert d. induction Hh as [|h w now e w' Hh IH Ht H]; intros d Hd Hi; [done|].
  assert (Hkeep : rs_degens (ow_rates w) !! t = Some d ->
    exists h2 w2 j f ev, before h2 w2 (at_, ODeliver j) ((now, e) :: h) /\ ow_fl w2 !! j = Some f /\
    flight_event f = Some ev /\ told_now (ow_rates w2) t ev price).
  { intros Hd0. destruct (IH _ Hd0 Hi) as (h2 & w2 & j & f & ev & [? ?] & ?). exists h2, w2, j, f, ev.
    split; [|done]. split; [done|]. now apply suffix_cons_r. }
  destruct e; cbn [o_exec] in H.
  - apply bind_Some in H as (m & _ & H). injection H as <-. auto.
  - apply bind_Some in H as (m & _ & H). injection H as <-. auto.
  - apply bind_Some in H as (m & _ & H). injection H as <-. auto.
  - apply bind_Some in H as (m & _ & H). injection H as <-. auto.
  - apply bind_Some in H as ([] & Hna & H). apply ensure_Some in Hna.
    apply bind_Some in H as (s & Hs & H). injection H as <-.
    destruct (degen_step _ _ _ _ _ _ _ _ (fun u x => o_hist_tokens h w u x Hh) Hs Hd Hi) as [Hs'|(_ & Ha & _)];
      [now auto|now rewrite Ha in Hna].
  - apply bind_Some in H as (m & _ & H). injection H as <-. auto.
  - apply bind_Some in H as (m & _ & H). injection H as <-. auto.
  - apply bind_Some in H as (m & _ & H). injection H as <-. auto.
  - apply bind_Some in H as (f & _ & H). destruct (snd f !! i) as [[a [g|]]|]; try done. injection H as <-. auto.
  - apply bind_Some in H as (f & Hf & H). apply bind_Some in H as ([] & _ & H). injection H as <-.
    cbn [ow_rates ow_set_fl ow_set_rates] in *. destruct (flight_event f) as [ev|] eqn:Hev; [|auto].
    destruct (rate_exec (ow_rates w) now ev) as [s|] eqn:Hs; cbn [default from_option id] in *; [|auto].
    destruct (degen_step _ _ _ _ _ _ _ _ (fun u x => o_hist_tokens h w u x Hh) Hs Hd Hi) as [Hs'|(-> & Ha & Htold)];
      [now auto|].
    exists h, w, j, f, ev. split_and!; auto. split; [done|reflexivity].
Qed.

Lemma rate_delivered h w t r :
  o_hist h w -> rs_rates (ow_rates w) !! t = Some r ->
  rt_at r = 0 /\ rt_rate r = 10 ^ 24 \/
  exists h2 w2 j f a r2, before h2 w2 (rt_at r, ODeliver j) h /\ ow_fl w2 !! j = Some f /\
    flight_event f = Some (EvRateAnswer t a) /\ rs_rates (ow_rates w2) !! t = Some r2 /\
    (exists r3, rate_set (rt_at r) r2 a = Some r3) /\ good_rate_answer t a (rt_at r) (rt_rate r).
Proof.
  intros Hh. revert r. induction Hh as [|h w now e w' Hh IH Ht H]; intros r Hr; [done|].
  assert (Hkeep : forall r0, rs_rates (ow_rates w) !! t = Some r0 -> rt_rate r = rt_rate r0 -> rt_at r = rt_at r0 ->
    rt_at r = 0 /\ rt_rate r = 10 ^ 24 \/
    exists h2 w2 j f a r2, before h2 w2 (rt_at r, ODeliver j) ((now, e) :: h) /\ ow_fl w2 !! j = Some f /\
    flight_event f = Some (EvRateAnswer t a) /\ rs_rates (ow_rates w2) !! t = Some r2 /\
    (exists r3, rate_set (rt_at r) r2 a = Some r3) /\ good_rate_answer t a (rt_at r) (rt_rate r)).
  { intros r0 Hr0 E1 E2. destruct (IH _ Hr0) as [?|(h2 & w2 & j & f & a & r2 & [? ?] & ?)].
    - left. now rewrite E1, E2.
    - right. rewrite E1, E2. exists h2, w2, j, f, a, r2. split; [|done]. split; [done|]. now apply suffix_cons_r. }
  destruct e; cbn [o_exec] in H.
  - apply bind_Some in H as (m & _ & H). injection H as <-. eauto.
  - apply bind_Some in H as (m & _ & H). injection H as <-. eauto.
  - apply bind_Some in H as (m & _ & H). injection H as <-. eauto.
  - apply bind_Some in H as (m & _ & H). injection H as <-. eauto.
  - apply bind_Some in H as ([] & Hna & H). apply ensure_Some in Hna.
    apply bind_Some in H as (s & Hs & H). injection H as <-.
    destruct (rate_step _ _ _ _ _ _ (fun u x => o_hist_contracts h w u x Hh) Hs Hr)
      as [(r0 & H0 & H1 & H2)|[[H1 H2]|(_ & r0 & a & -> & _)]]; [eauto|auto|done].
  - apply bind_Some in H as (m & _ & H). injection H as <-. eauto.
  - apply bind_Some in H as (m & _ & H). injection H as <-. eauto.
  - apply bind_Some in H as (m & _ & H). injection H as <-. eauto.
  - apply bind_Some in H as (f & _ & H). destruct (snd f !! i) as [[a [g|]]|]; try done. injection H as <-. eauto.
  - apply bind_Some in H as (f & Hf & H). apply bind_Some in H as ([] & _ & H). injection H as <-.
    cbn [ow_rates ow_set_fl ow_set_rates] in *. destruct (flight_event f) as [ev|] eqn:Hev; [|eauto].
    destruct (rate_exec (ow_rates w) now ev) as [s|] eqn:Hs; cbn [default from_option id] in *; [|eauto].
    destruct (rate_step _ _ _ _ _ _ (fun u x => o_hist_contracts h w u x Hh) Hs Hr)
      as [(r0 & H0 & H1 & H2)|[[H1 H2]|(E & r0 & a & -> & Hr0 & Hset & Hg)]]; [eauto|auto|].
    right. rewrite E in *. exists h, w, j, f, a, r0. split_and!; eauto. split; [done|reflexivity].
Qed.
