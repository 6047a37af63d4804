(** * C110: every stored price is what the token's oracle held between the question and the answer;
    an update stores the oracle's price; but a price asked of a feed that was replaced meanwhile is
    stored as the price of the new feed. *)
From Verif Require Import Base BaseLemmas StableMath StablePool Rates SpecRates RatesProofs Oracles SpecOracles OraclesProofs PropRates.

Lemma req_degen w e rq t l : requests w e = Some rq -> (ThenDegen t, l) ∈ rq ->
  exists d, rs_degens (ow_rates w) !! t = Some d /\ degen_async (ow_rates w) d = Some l.
Proof.
  destruct e; cbn [requests]; try done; intros H Hin.
  - injection H as <-. destruct (rs_rates (ow_rates w) !! t0); [|now apply elem_of_nil in Hin].
    apply elem_of_list_singleton in Hin. done.
  - apply bind_Some in H as (d & Hd & H). apply bind_Some in H as (a & Ha & H). injection H as <-.
    apply elem_of_list_singleton in Hin. injection Hin as -> ->. eauto.
  - unfold batch_async in H. apply bind_Some in H as ([a b] & Hab & H). apply bind_Some in H as (x & Hx & H).
    apply bind_Some in H as (y & Hy & H). injection H as <-. apply elem_of_app in Hin as [Hin|Hin].
    + destruct (decide (a = ∅)); [injection Hx as <-; now apply elem_of_nil in Hin|].
      apply bind_Some in Hx as (c & _ & Hx). injection Hx as <-. apply elem_of_list_singleton in Hin. done.
    + destruct b; [injection Hy as <-; now apply elem_of_nil in Hin|].
      apply bind_Some in Hy as (c & _ & Hy). injection Hy as <-. apply elem_of_list_singleton in Hin. done.
Qed.
Lemma req_rate w e rq t l : requests w e = Some rq -> (ThenRate t, l) ∈ rq ->
  exists r, rs_rates (ow_rates w) !! t = Some r /\ l = rate_async r.
Proof.
  destruct e; cbn [requests]; try done; intros H Hin.
  - injection H as <-. destruct (rs_rates (ow_rates w) !! t0) as [r|] eqn:Hr; [|now apply elem_of_nil in Hin].
    apply elem_of_list_singleton in Hin. injection Hin as -> ->. eauto.
  - apply bind_Some in H as (d & Hd & H). apply bind_Some in H as (a & Ha & H). injection H as <-.
    apply elem_of_list_singleton in Hin. done.
  - unfold batch_async in H. apply bind_Some in H as ([a b] & Hab & H). apply bind_Some in H as (x & Hx & H).
    apply bind_Some in H as (y & Hy & H). injection H as <-. apply elem_of_app in Hin as [Hin|Hin].
    + destruct (decide (a = ∅)); [injection Hx as <-; now apply elem_of_nil in Hin|].
      apply bind_Some in Hx as (c & _ & Hx). injection Hx as <-. apply elem_of_list_singleton in Hin. done.
    + destruct b; [injection Hy as <-; now apply elem_of_nil in Hin|].
      apply bind_Some in Hy as (c & _ & Hy). injection Hy as <-. apply elem_of_list_singleton in Hin. done.
Qed.
Lemma req_batch_price w e rq decs l : requests w e = Some rq -> (ThenBatchPrice decs, l) ∈ rq ->
  exists c, rs_price_cfg (ow_rates w) = Some c /\ l = [AskPrices (poc_oracle c) (map_to_list decs).*1] /\
  forall t dec, decs !! t = Some dec -> exists d, rs_degens (ow_rates w) !! t = Some d /\ dg_src d = DPriceOracle dec.
Proof.
  destruct e; cbn [requests]; try done; intros H Hin.
  - injection H as <-. destruct (rs_rates (ow_rates w) !! t); [|now apply elem_of_nil in Hin].
    apply elem_of_list_singleton in Hin. done.
  - apply bind_Some in H as (d & Hd & H). apply bind_Some in H as (a & Ha & H). injection H as <-.
    apply elem_of_list_singleton in Hin. done.
  - unfold batch_async in H. apply bind_Some in H as ([a b] & Hab & H). apply bind_Some in H as (x & Hx & H).
    apply bind_Some in H as (y & Hy & H). injection H as <-. apply elem_of_app in Hin as [Hin|Hin].
    + destruct (decide (a = ∅)); [injection Hx as <-; now apply elem_of_nil in Hin|].
      apply bind_Some in Hx as (c & Hc & Hx). injection Hx as <-. apply elem_of_list_singleton in Hin.
      injection Hin as -> ->. exists c. split_and!; auto. apply (split_degens_src _ _ _ _ Hab).
    + destruct b; [injection Hy as <-; now apply elem_of_nil in Hin|].
      apply bind_Some in Hy as (c & _ & Hy). injection Hy as <-. apply elem_of_list_singleton in Hin. done.
Qed.
Lemma req_batch_pyth w e rq ids l : requests w e = Some rq -> (ThenBatchPyth ids, l) ∈ rq ->
  exists c, rs_pyth_cfg (ow_rates w) = Some c /\ l = [AskPythList (pyc_oracle c) ids.*1] /\
  forall i ts t, (i, ts) ∈ ids -> t ∈ ts -> exists d, rs_degens (ow_rates w) !! t = Some d /\ dg_src d = DPyth i.
Proof.
  destruct e; cbn [requests]; try done; intros H Hin.
  - injection H as <-. destruct (rs_rates (ow_rates w) !! t); [|now apply elem_of_nil in Hin].
    apply elem_of_list_singleton in Hin. done.
  - apply bind_Some in H as (d & Hd & H). apply bind_Some in H as (a & Ha & H). injection H as <-.
    apply elem_of_list_singleton in Hin. done.
  - unfold batch_async in H. apply bind_Some in H as ([a b] & Hab & H). apply bind_Some in H as (x & Hx & H).
    apply bind_Some in H as (y & Hy & H). injection H as <-. apply elem_of_app in Hin as [Hin|Hin].
    + destruct (decide (a = ∅)); [injection Hx as <-; now apply elem_of_nil in Hin|].
      apply bind_Some in Hx as (c & Hc & Hx). injection Hx as <-. apply elem_of_list_singleton in Hin. done.
    + destruct b as [|b0 b']; [injection Hy as <-; now apply elem_of_nil in Hin|].
      apply bind_Some in Hy as (c & Hc & Hy). injection Hy as <-. apply elem_of_list_singleton in Hin.
      injection Hin as -> ->. exists c. split_and!; auto. intros i us t Hi Ht.
      apply elem_of_map_to_list in Hi. eapply (split_degens_src _ _ _ _ Hab), group_ids_in; eauto.
Qed.

(** ** Every world is a history of price events, so C21 applies to it *)
Theorem C110_refines h w : o_hist h w ->
  exists r, rate_history r (ow_rates w) /\ forall x, x ∈ r -> exists e, (fst x, e) ∈ h /\
    match e with OOwner ev => ev = snd x | ODeliver _ => is_answer (snd x) = true | _ => False end.
Proof. apply o_hist_rates. Qed.
Print Assumptions C110_refines.

(** ** Where a stored degen price comes from: somebody asked for it in [w0], when the token read
    [feed] of contract [o]; that contract answered in [w1], when the feed showed the price; the
    answer was stored in [w2].  The decimals are those at the time of the question, or (single
    update) those when the answer arrived. *)
Theorem C110_degen_source h w t d price at_ :
  o_hist h w -> rs_degens (ow_rates w) !! t = Some d -> dg_info d = Some (price, at_) ->
  exists h0 w0 q h1 w1 y h2 w2 z o feed,
    before h2 w2 (at_, z) h /\ before h1 w1 y h2 /\ before h0 w0 q h1 /\
    fst q <= fst y <= at_ /\ feed_of w0 t o feed /\
    (feed_shows w1 t o feed price \/
     exists dec o2, feed_of w2 t o2 (DPriceOracle dec) /\
       (exists dec0, feed = DPriceOracle dec0) /\ feed_shows w1 t o (DPriceOracle dec) price).
Proof.
  intros Hh Hd Hi. destruct (degen_delivered h w t d price at_ Hh Hd Hi) as (h2 & w2 & j & f & ev & Hb2 & Hf & Hev & Htold).
  assert (Hh2 : o_hist h2 w2) by apply Hb2.
  destruct (flights_asked h2 w2 Hh2 j f Hf) as (h0 & w0 & q & Hb0 & (rq & Hrq & Hin) & Hans).
  assert (Htime : forall h1 w1 y, before h1 w1 y h2 -> (q :: h0) `suffix_of` h1 -> fst q <= fst y <= at_).
  { clear - Hb2 Hh. intros h1 w1 y [_ Hs1] Hs0.
    assert (HF : forall h w, o_hist h w -> forall x h', (x :: h') `suffix_of` h -> Forall (fun z => fst z <= fst x) h').
    { clear. intros h w. induction 1 as [|h w now e w' Hh IH Ht H]; intros x h' Hs.
      - apply suffix_nil_inv in Hs. done.
      - apply suffix_cons_inv in Hs as [E|Hs]; [injection E as -> ->; done|eauto]. }
    assert (Hel : forall (x : N * OEvent) h' h'', (x :: h') `suffix_of` h'' -> x ∈ h'').
    { intros x h' h'' (k & ->). apply elem_of_app. right. left. }
    split.
    - destruct Hb2 as [Hh2 _]. pose proof (HF _ _ Hh2 _ _ Hs1) as F. rewrite Forall_forall in F. eapply F, Hel, Hs0.
    - destruct Hb2 as [_ Hs2]. pose proof (HF _ _ Hh _ _ Hs2) as F. rewrite Forall_forall in F. apply (F y). eapply Hel, Hs1. }
  assert (Hpack : forall th a g, f = (th, [(a, Some g)]) -> exists h1 w1 y, before h1 w1 y h2 /\ before h0 w0 q h1 /\
    fst q <= fst y <= at_ /\ g = answer w1 (fst y) a).
  { intros th a g ->. destruct (Hans 0%nat a g eq_refl) as (h1 & w1 & y & Hb1 & Hs & Hg).
    exists h1, w1, y. split_and!; auto; [split; [apply Hb0|done]|eapply Htime; eauto..]. }
  destruct Htold as [(d0 & dec & pd & p & rest & -> & Hd0 & Hsrc & (c2 & Hc2) & Hpd & Hq)|[(p & -> & ->)|[(decs & pd & p & dec & -> & Hp & Hdec & Hq)|
    (ids & prices & i & ts & p & -> & Hid & Hts & Hp & ->)]]].
  - assert (Hfe : exists a, f = (ThenDegen t, [(a, Some (GPrices pd))])).
    { unfold flight_event in Hev. destruct f as [th l]. cbn [fst snd] in Hev. destruct th; repeat case_match; try done; injection Hev as ? ?; subst;
        destruct l as [|[? ?] [|[? ?] l]]; cbn in *; try done; simplify_eq; eauto. }
    destruct Hfe as (a & E). destruct (Hpack _ _ _ E) as (h1 & w1 & y & Hb1 & Hb0' & Ht & Hg). subst f. cbn in Hin.
    destruct (req_degen _ _ _ _ _ Hrq Hin) as (dq & Hdq & Hda). unfold degen_async in Hda.
    destruct (dg_src dq) as [dec0|i] eqn:Hsq; apply bind_Some in Hda as (c & Hc & [= <-]); cbn [answer] in Hg.
    2: { destruct (ow_py w1 !! pyc_oracle c); done. }
    destruct (ow_po w1 !! poc_oracle c) as [m|] eqn:Hm; [|done]. injection Hg as ->.
    rewrite (o_hist_tokens h0 w0 t dq) in Hpd by (try apply Hb0; done). cbn in Hpd. injection Hpd as Hmp _.
    exists h0, w0, q, h1, w1, y, h2, w2, (ODeliver j), (poc_oracle c), (DPriceOracle dec0).
    split_and!; [done|done|done|apply Ht|apply Ht| |].
    + exists dq. split_and!; auto. exists c. auto.
    + right. exists dec, (poc_oracle c2). split_and!; [exists d0; split_and!; eauto|eauto|]. exists p. split; [exists m; auto|done].
  - assert (Hfe : exists a, f = (ThenDegen t, [(a, Some (GPyth (Some p)))])).
    { unfold flight_event in Hev. destruct f as [th l]. cbn [fst snd] in Hev. destruct th; repeat case_match; try done; injection Hev as ? ?; subst;
        destruct l as [|[? ?] [|[? ?] l]]; cbn in *; try done; simplify_eq; eauto. }
    destruct Hfe as (a & E). destruct (Hpack _ _ _ E) as (h1 & w1 & y & Hb1 & Hb0' & Ht & Hg). subst f. cbn in Hin.
    destruct (req_degen _ _ _ _ _ Hrq Hin) as (dq & Hdq & Hda). unfold degen_async in Hda.
    destruct (dg_src dq) as [dec0|i] eqn:Hsq; apply bind_Some in Hda as (c & Hc & [= <-]); cbn [answer] in Hg.
    { destruct (ow_po w1 !! poc_oracle c); done. }
    destruct (ow_py w1 !! pyc_oracle c) as [m|] eqn:Hm; [|done]. injection Hg as Hmp.
    exists h0, w0, q, h1, w1, y, h2, w2, (ODeliver j), (pyc_oracle c), (DPyth i).
    split_and!; [done|done|done|apply Ht|apply Ht| |].
    + exists dq. split_and!; auto. exists c. auto.
    + left. exists p. split; [exists m; auto|done].
  - assert (Hfe : exists a, f = (ThenBatchPrice decs, [(a, Some (GPrices pd))])).
    { unfold flight_event in Hev. destruct f as [th l]. cbn [fst snd] in Hev. destruct th; repeat case_match; try done; injection Hev as ? ?; subst;
        destruct l as [|[? ?] [|[? ?] l]]; cbn in *; try done; simplify_eq; eauto. }
    destruct Hfe as (a & E). destruct (Hpack _ _ _ E) as (h1 & w1 & y & Hb1 & Hb0' & Ht & Hg). subst f. cbn in Hin.
    destruct (req_batch_price _ _ _ _ _ Hrq Hin) as (c & Hc & [= ->] & Hsrc). cbn [answer] in Hg.
    destruct (ow_po w1 !! poc_oracle c) as [m|] eqn:Hm; [|done]. injection Hg as ->.
    cbn in Hp. apply elem_of_list_fmap in Hp as (u & [= <- Hmp] & _).
    destruct (Hsrc _ _ Hdec) as (dq & Hdq & Hsq).
    exists h0, w0, q, h1, w1, y, h2, w2, (ODeliver j), (poc_oracle c), (DPriceOracle dec).
    split_and!; [done|done|done|apply Ht|apply Ht| |].
    + exists dq. split_and!; auto. exists c. auto.
    + left. exists p. split; [exists m; auto|done].
  - assert (Hfe : exists a m, f = (ThenBatchPyth ids, [(a, Some (GPythList m))]) /\ prices = omap id m).
    { unfold flight_event in Hev. destruct f as [th l]. cbn [fst snd] in Hev. destruct th; repeat case_match; try done; injection Hev as ? ?; subst;
        destruct l as [|[? ?] [|[? ?] l]]; cbn in *; try done; simplify_eq; eauto. }
    destruct Hfe as (a & mm & E & ->). destruct (Hpack _ _ _ E) as (h1 & w1 & y & Hb1 & Hb0' & Ht & Hg). subst f. cbn in Hin.
    destruct (req_batch_pyth _ _ _ _ _ Hrq Hin) as (c & Hc & [= ->] & Hsrc). cbn [answer] in Hg.
    destruct (ow_py w1 !! pyc_oracle c) as [m|] eqn:Hm; [|done]. injection Hg as ->.
    rewrite lookup_omap in Hp. rewrite pyth_list_lookup in Hp.
    destruct (decide (i ∈ ids.*1)); [|done]. cbn in Hp.
    destruct (Hsrc _ _ _ Hid Hts) as (dq & Hdq & Hsq).
    exists h0, w0, q, h1, w1, y, h2, w2, (ODeliver j), (pyc_oracle c), (DPyth i).
    split_and!; [done|done|done|apply Ht|apply Ht| |].
    + exists dq. split_and!; auto. exists c. auto.
    + left. exists p. split; [exists m; auto|done].
Qed.
Print Assumptions C110_degen_source.

(** While the token's feed is never changed, its price is what that feed showed. *)
Theorem C110_degen_steady h w t d price at_ o feed :
  o_hist h w -> rs_degens (ow_rates w) !! t = Some d -> dg_info d = Some (price, at_) ->
  (forall h' w' o' feed', h' `suffix_of` h -> o_hist h' w' -> feed_of w' t o' feed' -> o' = o /\ feed' = feed) ->
  exists h1 w1 y, before h1 w1 y h /\ fst y <= at_ /\ feed_shows w1 t o feed price.
Proof.
  intros Hh Hd Hi Hst. destruct (C110_degen_source h w t d price at_ Hh Hd Hi)
    as (h0 & w0 & q & h1 & w1 & y & h2 & w2 & z & o' & feed' & [Hh2 Hs2] & [Hh1 Hs1] & [Hh0 Hs0] & Ht & Hf & Hor).
  assert (S2 : h2 `suffix_of` h) by (etransitivity; [apply suffix_cons_r; reflexivity|exact Hs2]).
  assert (S1 : y :: h1 `suffix_of` h) by (etransitivity; [exact Hs1|exact S2]).
  assert (S0 : h0 `suffix_of` h).
  { etransitivity; [apply suffix_cons_r; reflexivity|]. etransitivity; [exact Hs0|].
    etransitivity; [apply suffix_cons_r; reflexivity|exact S1]. }
  destruct (Hst _ _ _ _ S0 Hh0 Hf) as [-> ->]. exists h1, w1, y. split_and!; [split; done|apply Ht|].
  destruct Hor as [?|(dec & o2 & Hf2 & _ & Hs)]; [done|].
  destruct (Hst _ _ _ _ S2 Hh2 Hf2) as [_ <-]. done.
Qed.
Print Assumptions C110_degen_steady.

(** ** Where a stored rate comes from: the sources of the rate registered when it was asked for. *)
Theorem C110_rate_source h w t r :
  o_hist h w -> rs_rates (ow_rates w) !! t = Some r ->
  rt_at r = 0 /\ rt_rate r = 10 ^ 24 \/
  exists h0 w0 q r0 h1 w1 y h1' w1' y' h2 w2 z,
    before h2 w2 (rt_at r, z) h /\ before h1 w1 y h2 /\ before h1' w1' y' h2 /\
    before h0 w0 q h1 /\ before h0 w0 q h1' /\
    rs_rates (ow_rates w0) !! t = Some r0 /\ rate_shows w1 w1' t (rt_kind r0) (rt_rate r).
Proof.
  intros Hh Hr. destruct (rate_delivered h w t r Hh Hr) as [?|(h2 & w2 & j & f & a & r2 & Hb2 & Hf & Hev & Hr2 & _ & Hg)]; [auto|right].
  assert (Hh2 : o_hist h2 w2) by apply Hb2.
  destruct (flights_asked h2 w2 Hh2 j f Hf) as (h0 & w0 & q & Hb0 & (rq & Hrq & Hin) & Hans).
  assert (Hsh : (exists k x, f = (ThenRate t, [(k, Some (GU128 x))]) /\ a = AnsU128 x) \/
    (exists k d, f = (ThenRate t, [(k, Some (GPrices d))]) /\ a = AnsPrices d) \/
    (exists k k' b p, f = (ThenRate t, [(k, Some (GPyth (Some b))); (k', Some (GPyth (Some p)))]) /\ a = AnsPyth b p)).
  { unfold flight_event in Hev. destruct f as [th l]. cbn [fst snd] in Hev. destruct th; repeat case_match; try done; injection Hev as ? ?; subst;
      destruct l as [|[? ?] [|[? ?] [|[? ?] l]]]; cbn in *; try done; simplify_eq; eauto 10. }
  assert (Hc0 : forall r0, rs_rates (ow_rates w0) !! t = Some r0 -> rt_contract r0 = t).
  { intros r0 H0. apply (o_hist_contracts h0 w0 t r0) in H0; [apply H0|apply Hb0]. }
  destruct Hsh as [(k & x & -> & ->)|[(k & dd & -> & ->)|(k & k' & b & p & -> & ->)]]; cbn [fst snd fmap list_fmap] in Hin;
    destruct (req_rate _ _ _ _ _ Hrq Hin) as (r0 & Hr0 & Hl); specialize (Hc0 _ Hr0).
  - destruct (Hans 0%nat k _ eq_refl) as (h1 & w1 & y & Hb1 & Hs & Hgk). cbn [good_rate_answer] in Hg.
    exists h0, w0, q, r0, h1, w1, y, h1, w1, y, h2, w2, (ODeliver j).
    assert (Hb : before h0 w0 q h1) by (split; [apply Hb0|done]). split_and!; auto.
    unfold rate_async in Hl. unfold rate_shows.
    destruct (rt_kind r0) as [| | |[o base ? ?|o bi ri ?]]; injection Hl as ->; cbn [answer] in Hgk; rewrite ?Hc0 in Hgk;
      repeat case_match; try done; injection Hgk as <-; now rewrite Hg.
  - destruct (Hans 0%nat k _ eq_refl) as (h1 & w1 & y & Hb1 & Hs & Hgk). cbn [good_rate_answer] in Hg.
    exists h0, w0, q, r0, h1, w1, y, h1, w1, y, h2, w2, (ODeliver j).
    assert (Hb : before h0 w0 q h1) by (split; [apply Hb0|done]). split_and!; auto.
    unfold rate_async in Hl. unfold rate_shows.
    destruct (rt_kind r0) as [| | |[o base ? ?|o bi ri ?]]; try done; injection Hl as ->; cbn [answer] in Hgk; rewrite ?Hc0 in Hgk;
      try (repeat case_match; done).
    destruct (ow_po w1 !! o) as [m|] eqn:Hm; [|done]. injection Hgk as ->.
    destruct Hg as (b & bp & rp & rest & Hpd & Hdec & _ & Hrate & _). cbn in Hpd. injection Hpd as <- Hbp Hrp <-.
    exists bp, rp. split_and!; [exists m; auto|exists m; auto|done|done].
  - destruct (Hans 0%nat k _ eq_refl) as (h1 & w1 & y & Hb1 & Hs & Hgk).
    destruct (Hans 1%nat k' _ eq_refl) as (h1' & w1' & y' & Hb1' & Hs' & Hgk'). cbn [good_rate_answer] in Hg.
    exists h0, w0, q, r0, h1, w1, y, h1', w1', y', h2, w2, (ODeliver j).
    assert (Hb : before h0 w0 q h1) by (split; [apply Hb0|done]).
    assert (Hb' : before h0 w0 q h1') by (split; [apply Hb0|done]). split_and!; auto.
    unfold rate_async in Hl. unfold rate_shows.
    destruct (rt_kind r0) as [| | |[o base ? ?|o bi ri ?]]; try done. injection Hl as -> ->. cbn [answer] in Hgk, Hgk'.
    destruct (ow_py w1 !! o) as [m|] eqn:Hm; [|done]. injection Hgk as Hgk.
    destruct (ow_py w1' !! o) as [m'|] eqn:Hm'; [|done]. injection Hgk' as Hgk'.
    exists b, p. split_and!; [exists m; auto|exists m'; auto|apply Hg].
Qed.
Print Assumptions C110_rate_source.

(** ** An update stores the oracle's price *)
Definition with_price (w : OWorld) (t : AccountId) (d : Degen) (price now : N) : OWorld :=
  ow_set_rates w (rs_set_degens (ow_rates w) (<[t := mkDegen (dg_src d) (dg_token d) (Some (price, now))]> (rs_degens (ow_rates w)))).

Lemma update_run w now t d l g ev s :
  rs_degens (ow_rates w) !! t = Some d -> degen_async (ow_rates w) d = Some [l] ->
  answer w now l = g -> flight_event (ThenDegen t, [(l, Some g)]) = Some ev ->
  rate_exec (ow_rates w) now ev = Some s ->
  exists w1 w2, o_exec w now (OUpdateDegen t) = Some w1 /\ o_exec w1 now (OAnswer (length (ow_fl w)) 0) = Some w2 /\
    o_exec w2 now (ODeliver (length (ow_fl w))) = Some (ow_set_rates w s).
Proof.
  intros Hd Ha Hg Hev Hs.
  exists (ow_set_fl w (ow_fl w ++ [(ThenDegen t, [(l, None)])])), (ow_set_fl w (ow_fl w ++ [(ThenDegen t, [(l, Some g)])])).
  split_and!.
  - cbn [o_exec requests]. rewrite Hd. cbn [mbind option_bind]. rewrite Ha. reflexivity.
  - cbn [o_exec ow_fl ow_set_fl]. rewrite list_lookup_middle by done. cbn.
    rewrite insert_app_r_alt by done. rewrite Nat.sub_diag. cbn. rewrite <- Hg. unfold ow_set_fl. cbn. now destruct w, l.
  - cbn [o_exec ow_fl ow_set_fl ow_rates]. rewrite list_lookup_middle by done.
    cbn [mbind option_bind flight_done forallb snd ensure andb]. rewrite Hev, Hs, delete_middle, app_nil_r. cbn. now destruct w.
Qed.

Lemma cpow_intro10 k : 10 ^ k < 2 ^ 128 -> cpow W128 10 k = Some (10 ^ k).
Proof. intros H. unfold cpow. now apply fit_intro. Qed.

Lemma valid_after w t d price now c_exp :
  degen_expire (ow_rates w) d = Some c_exp -> now + c_exp < 2 ^ 64 ->
  pe_valid (rs_pool_env (ow_rates (with_price w t d price now)) now KDegen) t = true.
Proof.
  intros He Hn. cbn. rewrite lookup_insert. unfold degen_is_price_valid.
  replace (degen_expire _ _) with (Some c_exp) by (symmetry; exact He). cbn [dg_info].
  rewrite cadd_intro by exact Hn. apply N.leb_le. lia.
Qed.

(** A token read from a price oracle: anyone's update, answered and delivered at once, stores the
    price the oracle holds, and the price is then valid. *)
Theorem C110_refresh_price w now t d dec c m p :
  rs_degens (ow_rates w) !! t = Some d -> dg_token d = t -> dg_src d = DPriceOracle dec ->
  rs_price_cfg (ow_rates w) = Some c -> 90 <= poc_recency c -> now + poc_expire c < 2 ^ 64 ->
  ow_po w !! poc_oracle c = Some m -> m !! t = Some p -> op_multiplier p < 2 ^ 128 -> dec <= op_decimals p ->
  10 ^ (op_decimals p - dec) < 2 ^ 128 -> 10 ^ 24 * op_multiplier p / 10 ^ (op_decimals p - dec) < 2 ^ 128 ->
  let w3 := with_price w t d (10 ^ 24 * op_multiplier p / 10 ^ (op_decimals p - dec)) now in
  (exists w1 w2, o_exec w now (OUpdateDegen t) = Some w1 /\ o_exec w1 now (OAnswer (length (ow_fl w)) 0) = Some w2 /\
    o_exec w2 now (ODeliver (length (ow_fl w))) = Some w3) /\
  pe_valid (rs_pool_env (ow_rates w3) now KDegen) t = true.
Proof.
  intros Hd Ht Hs Hc Hr Hn Hm Hp Hmul Hdec Hpow Hval w3. split.
  - eapply (update_run w now t d (AskPrices (poc_oracle c) [t])).
    + done.
    + unfold degen_async. rewrite Hs, Hc, Ht. reflexivity.
    + reflexivity.
    + cbn [answer flight_event fst snd fmap list_fmap]. rewrite Hm. reflexivity.
    + cbn [rate_exec rs_degen_callback]. unfold rs_degen_callback. rewrite Hd. cbn [mbind option_bind].
      unfold degen_set_price. rewrite Hs, Hc. cbn [mbind option_bind].
      unfold price_data_assert_valid, po_get. cbn [pd_recency pd_timestamp pd_prices].
      rewrite (ensure_intro (90 <=? poc_recency c)) by (now apply N.leb_le). cbn [mbind option_bind].
      rewrite (ensure_intro (now <=? now)) by (apply N.leb_le; lia). cbn [mbind option_bind].
      rewrite (ensure_intro (now - now <=? to_nano (poc_stale c))) by (apply N.leb_le; rewrite N.sub_diag; apply N.le_0_l).
      cbn [mbind option_bind]. change (((fun a => (a, m !! a)) <$> [t]) !! 0%nat) with (Some (t, m !! t)).
      cbn [mbind option_bind]. rewrite Ht.
      rewrite (ensure_intro (t =? t)%string) by apply String.eqb_refl. cbn [mbind option_bind].
      rewrite Hp. cbn [mbind option_bind].
      unfold price_oracle_value. rewrite csub_intro by done. cbn [mbind option_bind]. rewrite cpow_intro10 by done.
      cbn [mbind option_bind]. unfold u128_ratio. rewrite PRECISION_val.
      rewrite cmul_intro.
      2: { apply N.lt_le_trans with (10 ^ 24 * 2 ^ 128); [nia|]. vm_compute; discriminate. }
      cbn [mbind option_bind]. rewrite cdiv_intro by (apply N.neq_0_lt_0, N.pow_nonzero; lia). cbn [mbind option_bind].
      rewrite fit_intro by exact Hval. cbn [mbind option_bind]. unfold degen_update. rewrite Hs, Ht. reflexivity.
  - eapply valid_after; [|exact Hn]. unfold degen_expire. rewrite Hs, Hc. reflexivity.
Qed.
Print Assumptions C110_refresh_price.

(** The same for a token read from pyth, for a positive price published recently. *)
Theorem C110_refresh_pyth w now t d i c m p :
  rs_degens (ow_rates w) !! t = Some d -> dg_src d = DPyth i ->
  rs_pyth_cfg (ow_rates w) = Some c -> now + pyc_expire c < 2 ^ 64 ->
  ow_py w !! pyc_oracle c = Some m -> m !! i = Some p -> (0 < py_price p < 2 ^ 63)%Z -> (0 < py_publish p)%Z ->
  (py_publish p + Z.of_N (pyc_dur c) < 2 ^ 32)%Z -> now <= (Z.to_N (py_publish p) + pyc_dur c) * 10 ^ 9 ->
  10 ^ Z.abs_N (py_expo p) < 2 ^ 128 -> scaled_pyth p < 2 ^ 128 ->
  let w3 := with_price w t d (scaled_pyth p) now in
  (exists w1 w2, o_exec w now (OUpdateDegen t) = Some w1 /\ o_exec w1 now (OAnswer (length (ow_fl w)) 0) = Some w2 /\
    o_exec w2 now (ODeliver (length (ow_fl w))) = Some w3) /\
  pe_valid (rs_pool_env (ow_rates w3) now KDegen) t = true.
Proof.
  intros Hd Hs Hc Hn Hm Hp Hpr Hpub Hfit Hnow Hpow Hval w3. split.
  - eapply (update_run w now t d (AskPyth (pyc_oracle c) i)).
    + done.
    + unfold degen_async. rewrite Hs, Hc. reflexivity.
    + reflexivity.
    + cbn [answer flight_event fst snd fmap list_fmap]. rewrite Hm, Hp. reflexivity.
    + cbn [rate_exec]. unfold rs_degen_callback. rewrite Hd. cbn [mbind option_bind].
      unfold degen_set_price. rewrite Hs, Hc. cbn [mbind option_bind].
      rewrite ensure_intro by (apply Z.ltb_lt; lia). cbn [mbind option_bind].
      unfold pyth_is_valid. rewrite (proj2 (Z.ltb_lt 0 (py_price p))) by lia. rewrite (proj2 (Z.ltb_lt 0 (py_publish p))) by lia.
      cbn [andb]. rewrite as_u32_small by lia. rewrite cadd_intro by (rewrite W32_val; lia). cbn [mbind option_bind].
      rewrite ensure_intro by (apply N.leb_le; unfold to_nano; lia). cbn [mbind option_bind].
      assert (Hv : pyth_value p = Some (scaled_pyth p)).
      { unfold pyth_value, scaled_pyth in *. rewrite cpow_intro10 by done. cbn [mbind option_bind]. rewrite PRECISION_val.
        assert (Hx : 10 ^ 24 * Z.to_N (py_price p) < W256).
        { apply N.lt_le_trans with (10 ^ 24 * 2 ^ 63); [|vm_compute; discriminate].
          apply N.mul_lt_mono_pos_l; [vm_compute; reflexivity|]. change (2 ^ 63) with (Z.to_N (2 ^ 63)%Z). lia. }
        rewrite cmul_intro by exact Hx. cbn [mbind option_bind].
        destruct (Z.ltb_spec 0 (py_expo p)).
        - replace (Z.abs_N (py_expo p)) with (Z.to_N (py_expo p)) by lia. apply cmul_intro.
          eapply N.lt_trans; [exact Hval|]. vm_compute; reflexivity.
        - replace (Z.abs_N (py_expo p)) with (Z.to_N (- py_expo p)) by lia. apply cdiv_intro.
          apply N.neq_0_lt_0, N.pow_nonzero; lia. }
      rewrite Hv. cbn [mbind option_bind]. rewrite fit_intro by exact Hval. cbn [mbind option_bind].
      unfold degen_update. rewrite Hs. reflexivity.
  - eapply valid_after; [|exact Hn]. unfold degen_expire. rewrite Hs, Hc. reflexivity.
Qed.
Print Assumptions C110_refresh_pyth.

(** ** A concrete history *)
Fixpoint o_replay (h : list (N * OEvent)) : option OWorld :=
  match h with
  | [] => Some ow_empty
  | (now, e) :: r => w ← o_replay r; _ ← ensure (forallb (fun x => fst x <=? now) r); o_exec w now e
  end.
Lemma o_replay_hist h w : o_replay h = Some w -> o_hist h w.
Proof.
  revert w. induction h as [|[n e] h IH]; intros w H; cbn [o_replay] in H.
  - injection H as <-. constructor.
  - apply bind_Some in H as (s1 & H1 & H). apply bind_Some in H as ([] & Ht & H). apply ensure_Some in Ht.
    rewrite forallb_forall in Ht. econstructor; eauto.
    apply Forall_forall. intros x Hx. apply N.leb_le, Ht. now apply elem_of_list_In.
Qed.
Lemma o_hist_replay h w : o_hist h w -> o_replay h = Some w.
Proof.
  induction 1 as [|h w now e w' Hh IH Ht H]; [done|]. cbn [o_replay]. rewrite IH. cbn [mbind option_bind].
  rewrite ensure_intro; [exact H|]. apply forallb_forall. intros x Hx. apply N.leb_le.
  rewrite Forall_forall in Ht. apply Ht. now apply elem_of_list_In.
Qed.

Definition ex_setup : list (N * OEvent) :=
  [ (ex_now, OSetRated "stn" (12 * 10 ^ 23));
    (ex_now, OSetPyth "pyth" "old" (mkPythPrice 2100 (-3) 1699999990));
    (ex_now, OSetPrice "po" "usn" (mkOPrice 9999 10));
    (ex_now, OSetPrice "po" "frx" (mkOPrice 104 20));
    (ex_now, OSetPrice "po" "frax" (mkOPrice 100 20));
    (ex_now, OOwner (EvRegisterDegen "eth" (DPyth "old")));
    (ex_now, OOwner (EvRegisterDegen "usn" (DPriceOracle 6)));
    (ex_now, OOwner (EvRegisterConfig (CfgPyth (mkPythOracleConfig "pyth" (3600 * 10 ^ 9) 60))));
    (ex_now, OOwner (EvRegisterConfig (CfgPrice (mkPriceOracleConfig "po" (3600 * 10 ^ 9) 90 60))));
    (ex_now, OOwner (EvRegisterRate (RSfrax (SfraxPriceOracle "po" "frax" 90 60)) "frx"));
    (ex_now, OOwner (EvRegisterRate RStnear "stn")) ].
Definition ex_honest : list (N * OEvent) :=
  [ (ex_now + 4, ODeliver 0); (ex_now + 4, ODeliver 0); (ex_now + 4, ODeliver 0); (ex_now + 3, ODeliver 3);
    (ex_now + 2, OAnswer 3 0); (ex_now + 2, OAnswer 2 0); (ex_now + 2, OAnswer 1 0); (ex_now + 2, OAnswer 0 0);
    (ex_now + 1, OUpdateRate "frx"); (ex_now + 1, OUpdateRate "stn");
    (ex_now + 1, OBatch ["usn"; "eth"]) ] ++ ex_setup.
Definition o_prices (w : OWorld) : list (option (N * N)) :=
  [ mbind dg_info (rs_degens (ow_rates w) !! "usn"); mbind dg_info (rs_degens (ow_rates w) !! "eth");
    (fun r => (rt_rate r, rt_at r)) <$> rs_rates (ow_rates w) !! "stn";
    (fun r => (rt_rate r, rt_at r)) <$> rs_rates (ow_rates w) !! "frx" ].
(** All four kinds of source: two degen tokens updated in a batch, two rates. *)
Example C110_ex : exists w, o_hist ex_honest w /\ ow_fl w = [] /\
  o_prices w = [Some (9999 * 10 ^ 20, ex_now + 4); Some (21 * 10 ^ 23, ex_now + 4); Some (12 * 10 ^ 23, ex_now + 4); Some (104 * 10 ^ 22, ex_now + 3)].
Proof.
  assert (H : (fun w => (ow_fl w, o_prices w)) <$> o_replay ex_honest =
    Some ([], [Some (9999 * 10 ^ 20, ex_now + 4); Some (21 * 10 ^ 23, ex_now + 4); Some (12 * 10 ^ 23, ex_now + 4); Some (104 * 10 ^ 22, ex_now + 3)]))
    by (vm_compute; reflexivity).
  apply fmap_Some in H as (w & E & H). exists w. split; [now apply o_replay_hist|].
  split; [exact (eq_sym (f_equal fst H))|exact (eq_sym (f_equal snd H))].
Qed.

(** ** A replaced feed
    The owner replaces the feed of "eth" while a question about it is in flight.  The answer, from
    the old feed, is stored and is valid, although the new feed never showed that price. *)
Definition ex_switch : list (N * OEvent) :=
  [ (ex_now + 4, ODeliver 0); (ex_now + 3, OAnswer 0 0);
    (ex_now + 2, OOwner (EvUpdateDegen "eth" (DPyth "new"))); (ex_now + 2, OSetPyth "pyth" "new" (mkPythPrice 3500 0 1699999990));
    (ex_now + 1, OUpdateDegen "eth") ] ++ ex_setup.
Fixpoint tails {A} (l : list A) : list (list A) := l :: match l with [] => [] | _ :: r => tails r end.
Lemma suffix_tails {A} (k l : list A) : k `suffix_of` l -> k ∈ tails l.
Proof.
  induction l as [|x l IH]; cbn [tails]; intros H.
  - apply suffix_nil_inv in H as ->. left.
  - destruct k as [|y k].
    + right. apply IH. apply suffix_nil.
    + apply suffix_cons_inv in H as [->|H]; [left|right; auto].
Qed.
Definition shown_new (h : list (N * OEvent)) : option PythPrice :=
  w ← o_replay h; m ← ow_py w !! "pyth"; m !! "new".

Theorem C110_replaced_feed_refuted :
  ~ (forall h w t d price at_ o feed, o_hist h w -> rs_degens (ow_rates w) !! t = Some d -> dg_info d = Some (price, at_) ->
      feed_of w t o feed -> exists h1 w1, h1 `suffix_of` h /\ o_hist h1 w1 /\ feed_shows w1 t o feed price).
Proof.
  intros H.
  assert (Hst : (fun w => (rs_degens (ow_rates w) !! "eth", pyc_oracle <$> rs_pyth_cfg (ow_rates w))) <$> o_replay ex_switch =
    Some (Some (mkDegen (DPyth "new") "eth" (Some (21 * 10 ^ 23, ex_now + 4))), Some "pyth")) by (vm_compute; reflexivity).
  apply fmap_Some in Hst as (w & E & Hst). pose proof (eq_sym (f_equal fst Hst)) as Hd. pose proof (eq_sym (f_equal snd Hst)) as Hc.
  cbn beta iota delta [fst snd] in Hd, Hc. clear Hst.
  destruct (rs_pyth_cfg (ow_rates w)) as [c|] eqn:Hcfg; [|done]. cbn in Hc. injection Hc as Hc.
  destruct (H ex_switch w "eth" _ _ _ "pyth" (DPyth "new") (o_replay_hist _ _ E) Hd eq_refl) as (h1 & w1 & Hs & Hh & p & (m & Hm & Hp) & Hpr).
  { eexists. split; [exact Hd|]. split; [done|]. exists c. auto. }
  apply suffix_tails in Hs. apply o_hist_replay in Hh.
  assert (Hall : forallb (fun h => match shown_new h with Some p => negb (scaled_pyth p =? 21 * 10 ^ 23) | None => true end) (tails ex_switch) = true)
    by (vm_compute; reflexivity).
  rewrite forallb_forall in Hall. specialize (Hall h1 (proj1 (elem_of_list_In _ _) Hs)).
  unfold shown_new in Hall. rewrite Hh in Hall. cbn [mbind option_bind] in Hall. rewrite Hm in Hall. cbn [mbind option_bind] in Hall.
  rewrite Hp in Hall. rewrite <- Hpr in Hall. rewrite N.eqb_refl in Hall. done.
Qed.
Print Assumptions C110_replaced_feed_refuted.

(** The same with a batch update and corrected decimals: the owner changes the decimals of "usn" from
    6 to 8 while a batch is in flight; the stored price has the old decimals, a hundredth of the right one. *)
Definition ex_switch_batch : list (N * OEvent) :=
  [ (ex_now + 4, ODeliver 0); (ex_now + 3, OAnswer 0 0);
    (ex_now + 2, OOwner (EvUpdateDegen "usn" (DPriceOracle 8)));
    (ex_now + 1, OBatch ["usn"]) ] ++ ex_setup.
Example C110_old_decimals_ex :
  (fun w => (rs_degens (ow_rates w) !! "usn", pe_valid (rs_pool_env (ow_rates w) (ex_now + 5) KDegen) "usn")) <$> o_replay ex_switch_batch =
    Some (Some (mkDegen (DPriceOracle 8) "usn" (Some (9999 * 10 ^ 20, ex_now + 4))), true) /\
  quoted (mkOPrice 9999 10) 8 (9999 * 10 ^ 22).
Proof. split; [vm_compute; reflexivity|]. split; [vm_compute; discriminate|vm_compute; reflexivity]. Qed.
