(** * Specification vocabulary for prices with their oracles: histories of the world of [Oracles],
    which feed a token reads, and what a feed holds. *)
From Verif Require Import Base Rates SpecRates Oracles.

Definition ow_empty : OWorld := mkOWorld rs_empty ∅ ∅ ∅ [].
(** Histories, newest event first, with the block time of each event. *)
Inductive o_hist : list (N * OEvent) -> OWorld -> Prop :=
| oh_nil : o_hist [] ow_empty
| oh_step h w now e w' :
    o_hist h w -> Forall (fun x => fst x <= now) h ->
    o_exec w now e = Some w' -> o_hist ((now, e) :: h) w'.

(** [w1], with history [h1], is a moment of history [h] after event [x] and before event [y]. *)
Definition before (h1 : list (N * OEvent)) (w1 : OWorld) (y : N * OEvent) (h : list (N * OEvent)) : Prop :=
  o_hist h1 w1 /\ (y :: h1) `suffix_of` h.

(** Degen token [t] is registered in [w] to read [feed] from contract [o]. *)
Definition feed_of (w : OWorld) (t o : AccountId) (feed : DegenSrc) : Prop :=
  exists d, rs_degens (ow_rates w) !! t = Some d /\ dg_src d = feed /\
  match feed with
  | DPriceOracle _ => exists c, rs_price_cfg (ow_rates w) = Some c /\ poc_oracle c = o
  | DPyth _ => exists c, rs_pyth_cfg (ow_rates w) = Some c /\ pyc_oracle c = o
  end.

(** Contract [o] holds price [p] for an asset / an identifier. *)
Definition holds_price (w : OWorld) (o t : AccountId) (p : OPrice) : Prop :=
  exists m, ow_po w !! o = Some m /\ m !! t = Some p.
Definition holds_pyth (w : OWorld) (o : AccountId) (i : string) (p : PythPrice) : Prop :=
  exists m, ow_py w !! o = Some m /\ m !! i = Some p.

(** The price of token [t] that [feed] at contract [o] shows in [w]. *)
Definition feed_shows (w : OWorld) (t o : AccountId) (feed : DegenSrc) (price : N) : Prop :=
  match feed with
  | DPriceOracle dec => exists p, holds_price w o t p /\ quoted p dec price
  | DPyth i => exists p, holds_pyth w o i p /\ price = scaled_pyth p
  end.

(** The rate of token [t] of kind [k] that its sources show; the two identifiers of a pyth pair may
    be read at two moments [w1] and [w2]. *)
Definition rate_shows (w1 w2 : OWorld) (t : AccountId) (k : RateKind) (rate : N) : Prop :=
  match k with
  | RSfrax (SfraxPriceOracle o base _ _) =>
      exists bp rp, holds_price w1 o base bp /\ holds_price w1 o t rp /\ op_decimals bp = op_decimals rp /\
        rate = 10 ^ 24 * op_multiplier rp / op_multiplier bp
  | RSfrax (SfraxPyth o b q _) =>
      exists pb pq, holds_pyth w1 o b pb /\ holds_pyth w2 o q pq /\ rate = 10 ^ 24 * scaled_pyth pq / scaled_pyth pb
  | _ => ow_rated w1 !! t = Some rate
  end.
