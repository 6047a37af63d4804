(** * Specification vocabulary for rated and degen token prices: histories of price events and what
    it means for a stored price to come from a recent oracle answer.  No function of [Rates] that
    computes a price is used in the predicates. *)
From Verif Require Import Base Rates.

(** Everything that can change a stored rate, price or oracle configuration. *)
Inductive rate_event :=
| EvRegisterRate (k : RateKind) (t : AccountId)
| EvUnregisterRate (t : AccountId)
| EvExtraInfo (t : AccountId) (i : SfraxInfo)
| EvRateAnswer (t : AccountId) (a : RateAnswer)
| EvRegisterDegen (t : AccountId) (src : DegenSrc)
| EvUpdateDegen (t : AccountId) (src : DegenSrc)
| EvUnregisterDegen (t : AccountId)
| EvRegisterConfig (c : OracleConfig)
| EvUpdateConfig (c : OracleConfig)
| EvUnregisterConfig (key : string)
| EvDegenAnswer (t : AccountId) (a : DegenAnswer)
| EvBatchPrices (decs : gmap AccountId N) (d : PriceData)
| EvBatchPyth (ids : list (string * list AccountId)) (prices : gmap string PythPrice).

Definition rate_exec (s : RateState) (now : N) (ev : rate_event) : option RateState :=
  match ev with
  | EvRegisterRate k t => rs_register_rate s k t
  | EvUnregisterRate t => Some (rs_unregister_rate s t)
  | EvExtraInfo t i => rs_update_extra s t i
  | EvRateAnswer t a => rs_rate_callback s now t a
  | EvRegisterDegen t src => rs_register_degen s t src
  | EvUpdateDegen t src => rs_update_degen s t src
  | EvUnregisterDegen t => Some (rs_unregister_degen s t)
  | EvRegisterConfig c => rs_register_config s c
  | EvUpdateConfig c => rs_update_config s c
  | EvUnregisterConfig k => Some (rs_unregister_config s k)
  | EvDegenAnswer t a => rs_degen_callback s now t a
  | EvBatchPrices decs d => rs_batch_price_callback s now decs d
  | EvBatchPyth ids prices => rs_batch_pyth_callback s now ids prices
  end.

Definition rs_empty : RateState := mkRateState ∅ ∅ None None.

(** Histories, newest event first, with the block time of each event. *)
Inductive rate_history : list (N * rate_event) -> RateState -> Prop :=
| rh_nil : rate_history [] rs_empty
| rh_step h s now ev s' :
    rate_history h s -> Forall (fun x => fst x <= now) h ->
    rate_exec s now ev = Some s' -> rate_history ((now, ev) :: h) s'.

(** A pyth price was published at most [secs] seconds before [at_] (for publication times that fit
    32 bits, i.e. before the year 2106). *)
Definition published_within (p : PythPrice) (at_ secs : N) : Prop :=
  (0 < py_publish p)%Z /\
  ((py_publish p < 2 ^ 32)%Z -> at_ <= (Z.to_N (py_publish p) + secs) * 10 ^ 9).

(** The value of a pyth price scaled by 10^24. *)
Definition scaled_pyth (p : PythPrice) : N :=
  if (0 <? py_expo p)%Z then 10 ^ 24 * Z.to_N (py_price p) * 10 ^ Z.to_N (py_expo p)
  else 10 ^ 24 * Z.to_N (py_price p) / 10 ^ Z.to_N (- py_expo p).

(** [rate] is what answer [a] says token [t] is worth at time [at_], and the data in [a] is at most
    five minutes old. *)
Definition good_rate_answer (t : AccountId) (a : RateAnswer) (at_ rate : N) : Prop :=
  match a with
  | AnsU128 x => rate = x
  | AnsPrices d =>
      exists b bp rp rest, pd_prices d = (b, Some bp) :: (t, Some rp) :: rest /\
      op_decimals bp = op_decimals rp /\ 0 < op_multiplier bp /\
      rate = 10 ^ 24 * op_multiplier rp / op_multiplier bp /\
      pd_timestamp d <= at_ <= pd_timestamp d + 300 * 10 ^ 9
  | AnsPyth b q =>
      (0 < py_price b)%Z /\ (0 < py_price q)%Z /\ published_within b at_ 300 /\ published_within q at_ 300 /\
      0 < scaled_pyth b /\ rate = 10 ^ 24 * scaled_pyth q / scaled_pyth b
  end.

(** [price] is what event [ev], executed at [at_] in state [s0], says degen token [t] is worth; the
    data was within the limits configured in [s0]. *)
Definition fresh_prices (s0 : RateState) (d : PriceData) (at_ : N) : Prop :=
  exists cfg, rs_price_cfg s0 = Some cfg /\
  pd_timestamp d <= at_ <= pd_timestamp d + poc_stale cfg * 10 ^ 9 /\ pd_recency d <= poc_recency cfg.
Definition fresh_pyth (s0 : RateState) (p : PythPrice) (at_ : N) : Prop :=
  exists cfg, rs_pyth_cfg s0 = Some cfg /\ (0 < py_price p)%Z /\ published_within p at_ (pyc_dur cfg).
Definition quoted (p : OPrice) (decimals price : N) : Prop :=
  decimals <= op_decimals p /\ price = 10 ^ 24 * op_multiplier p / 10 ^ (op_decimals p - decimals).

Definition good_degen_event (s0 : RateState) (t : AccountId) (ev : rate_event) (at_ price : N) : Prop :=
  match ev with
  | EvDegenAnswer t' (DAnsPrices d) =>
      t' = t /\ fresh_prices s0 d at_ /\
      exists p rest dec, pd_prices d = (t, Some p) :: rest /\ quoted p dec price
  | EvDegenAnswer t' (DAnsPyth p) => t' = t /\ fresh_pyth s0 p at_ /\ price = scaled_pyth p
  | EvBatchPrices decs d =>
      fresh_prices s0 d at_ /\ exists p dec, (t, Some p) ∈ pd_prices d /\ decs !! t = Some dec /\ quoted p dec price
  | EvBatchPyth ids prices =>
      exists i ts p, (i, ts) ∈ ids /\ t ∈ ts /\ prices !! i = Some p /\ fresh_pyth s0 p at_ /\ price = scaled_pyth p
  | _ => False
  end.
