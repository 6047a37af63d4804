(** * Rated tokens, degen tokens and their oracles.
    Paths relative to /repo/ref-exchange/src:
    rated_swap/rate.rs, rated_swap/{stnear,linear,nearx,sfrax}_rate.rs, degen_swap/degen.rs,
    degen_swap/price_oracle.rs, degen_swap/pyth_oracle.rs, oracle.rs, utils.rs, lib.rs.

    Simplifications: the in-memory caches RATES / DEGENS / DEGEN_ORACLE_CONFIGS (rate.rs:15,
    degen.rs:18-19) are copies of the stored maps made afresh in every receipt, so only the stored
    maps are modelled; answers of other contracts are modelled after JSON parsing ([RateAnswer],
    [DegenAnswer]); an answer that does not parse, or has the wrong shape, is [None] (the callback
    panics); a pyth price identifier is a string; logs are dropped. *)
From Verif Require Import Base StableMath StablePool.

(** [EXPIRE_TS], stnear_rate.rs:10, linear_rate.rs:10, nearx_rate.rs:10, sfrax_rate.rs:10: 24 hours *)
Definition RATE_EXPIRE_TS : N := 24 * 3600 * 10 ^ 9.
(** sfrax_rate.rs:11-12 *)
Definition MAX_DURATION_SEC : N := 300.
Definition MIN_DURATION_SEC : N := 10.

(** utils.rs:167-169 to_nano: u32 seconds to u64 nanoseconds; cannot overflow *)
Definition to_nano (s : N) : N := s * 10 ^ 9.
(** utils.rs:163-165 nano_to_sec: [as u32] truncates *)
Definition nano_to_sec (t : N) : N := (t / 10 ^ 9) mod W32.

(** ** Oracle answers, oracle.rs *)
(** oracle.rs:13-17 price_oracle::Price *)
Record OPrice := mkOPrice { op_multiplier : N; op_decimals : N }.
(** oracle.rs:21-33 PriceData with AssetOptionalPrice entries *)
Record PriceData := mkPriceData {
  pd_timestamp : N; pd_recency : N; pd_prices : list (AccountId * option OPrice) }.
(** oracle.rs:65-73 pyth_oracle::Price: price i64, expo i32, publish_time i64; the confidence
    interval is not used by the contract *)
Record PythPrice := mkPythPrice { py_price : Z; py_expo : Z; py_publish : Z }.

(** oracle.rs:36-49 assert_valid (also sfrax_rate.rs:103-115) *)
Definition price_data_assert_valid (d : PriceData) (now max_recency max_stale : N) : option unit :=
  _ ← ensure (pd_recency d <=? max_recency);
  _ ← ensure (pd_timestamp d <=? now);
  ensure (now - pd_timestamp d <=? to_nano max_stale).

(** [publish_time as u32], i64 to u32 keeps the low 32 bits *)
Definition as_u32 (z : Z) : N := Z.to_N (z mod Z.of_N W32)%Z.

(** oracle.rs:76-80 is_valid, pyth_oracle.rs:53-54, sfrax_rate.rs:134-137.
    [None]: the u32 addition overflows.  Rust's && does not evaluate the sum when an earlier
    conjunct is false. *)
Definition pyth_is_valid (p : PythPrice) (now dur : N) : option bool :=
  if (0 <? py_price p)%Z && (0 <? py_publish p)%Z then
    s ← cadd W32 (as_u32 (py_publish p)) dur; Some (now <=? to_nano s)
  else Some false.

(** sfrax_rate.rs:139-143, pyth_oracle.rs:56-60 (before as_u128): PRECISION * price * 10^expo or
    PRECISION * price / 10^-expo in U256, the power in u128; [expo.abs()] panics on i32::MIN
    (its power of ten overflows anyway) *)
Definition pyth_value (p : PythPrice) : option N :=
  pw ← cpow W128 10 (Z.abs_N (py_expo p));
  x ← cmul W256 PRECISION (Z.to_N (py_price p));
  if (0 <? py_expo p)%Z then cmul W256 x pw else cdiv x pw.

(** ** Rated tokens *)
(** sfrax_rate.rs:14-43 SfraxExtraInfo *)
Inductive SfraxInfo :=
| SfraxPriceOracle (oracle base : AccountId) (max_recency max_stale : N)
| SfraxPyth (oracle : AccountId) (base_pid rate_pid : string) (dur : N).

Inductive RateKind := RStnear | RLinear | RNearx | RSfrax (info : SfraxInfo).

(** rate.rs:20-25; stnear_rate.rs:12-20 and siblings: stored_rates, rates_updated_at, contract_id *)
Record Rate := mkRate { rt_kind : RateKind; rt_rate : N; rt_at : N; rt_contract : AccountId }.

(** sfrax_rate.rs:45-62 assert_valid *)
Definition sfrax_valid (i : SfraxInfo) : bool :=
  let d := match i with SfraxPriceOracle _ _ _ d => d | SfraxPyth _ _ _ d => d end in
  (MIN_DURATION_SEC <=? d) && (d <=? MAX_DURATION_SEC).

(** rate.rs:79-87 new with stnear_rate.rs:52-60, sfrax_rate.rs:156-168; the [RateKind] argument
    already carries the parsed rate_type and extra_info *)
Definition rate_new (k : RateKind) (token : AccountId) : option Rate :=
  _ ← ensure (match k with RSfrax i => sfrax_valid i | _ => true end);
  Some (mkRate k PRECISION 0 token).

(** The parsed answers update_token_rate_callback can get (lib.rs:582-603): a U128 from the staking
    contract, PriceData, or two pyth prices *)
Inductive RateAnswer := AnsU128 (x : N) | AnsPrices (d : PriceData) | AnsPyth (b r : PythPrice).

(** stnear_rate.rs:41-49, linear, nearx; sfrax_rate.rs:98-153 set *)
Definition rate_set (now : N) (r : Rate) (a : RateAnswer) : option Rate :=
  match rt_kind r, a with
  | RSfrax (SfraxPriceOracle _ base max_recency max_stale), AnsPrices d =>
      _ ← price_data_assert_valid d now max_recency max_stale;
      '(b_id, b_price) ← pd_prices d !! 0%nat;
      '(r_id, r_price) ← pd_prices d !! 1%nat;
      _ ← ensure (String.eqb b_id base && String.eqb r_id (rt_contract r));
      bp ← b_price; rp ← r_price;
      _ ← ensure (op_decimals bp =? op_decimals rp);
      price ← u128_ratio PRECISION (op_multiplier rp) (op_multiplier bp);
      Some (mkRate (rt_kind r) price now (rt_contract r))
  | RSfrax (SfraxPyth _ _ _ dur), AnsPyth b q =>
      _ ← ensure (0 <? py_price b)%Z;
      _ ← ensure (0 <? py_price q)%Z;
      vb ← pyth_is_valid b now dur; _ ← ensure vb;
      vq ← pyth_is_valid q now dur; _ ← ensure vq;
      bp ← pyth_value b;
      qp ← pyth_value q;
      x ← cmul W256 PRECISION qp;
      y ← cdiv x bp;
      price ← fit W128 y;
      Some (mkRate (rt_kind r) price now (rt_contract r))
  | RSfrax _, _ => None
  | _, AnsU128 x => x ← fit W128 x; Some (mkRate (rt_kind r) x now (rt_contract r))
  | _, _ => None
  end.

(** stnear_rate.rs:29-31 are_actual; an overflowing u64 sum panics, which here counts as not
    actual (every caller asserts the result) *)
Definition rate_are_actual (now : N) (r : Rate) : bool :=
  match cadd W64 (rt_at r) RATE_EXPIRE_TS with Some x => now <=? x | None => false end.

(** ** Degen tokens *)
(** degen.rs:48-62, price_oracle.rs:29-33, pyth_oracle.rs:22-25 *)
Inductive DegenSrc := DPriceOracle (decimals : N) | DPyth (pid : string).
Record Degen := mkDegen { dg_src : DegenSrc; dg_token : AccountId; dg_info : option (N * N) }.

(** price_oracle.rs:15-26 *)
Record PriceOracleConfig := mkPriceOracleConfig {
  poc_oracle : AccountId; poc_expire : N; poc_recency : N; poc_stale : N }.
(** pyth_oracle.rs:14-20 *)
Record PythOracleConfig := mkPythOracleConfig { pyc_oracle : AccountId; pyc_expire : N; pyc_dur : N }.

(** The four stored maps.  The config map (degen.rs:168-181) has at most the two keys
    "PriceOracleConfig" and "PythOracleConfig" (degen.rs:32-39). *)
Record RateState := mkRateState {
  rs_rates : gmap AccountId Rate;
  rs_degens : gmap AccountId Degen;
  rs_price_cfg : option PriceOracleConfig;
  rs_pyth_cfg : option PythOracleConfig;
}.
Definition rs_set_rates (s : RateState) r := mkRateState r (rs_degens s) (rs_price_cfg s) (rs_pyth_cfg s).
Definition rs_set_degens (s : RateState) d := mkRateState (rs_rates s) d (rs_price_cfg s) (rs_pyth_cfg s).
Definition rs_set_price_cfg (s : RateState) c := mkRateState (rs_rates s) (rs_degens s) c (rs_pyth_cfg s).
Definition rs_set_pyth_cfg (s : RateState) c := mkRateState (rs_rates s) (rs_degens s) (rs_price_cfg s) c.

(** degen.rs:71-91 Degen::new *)
Definition degen_new (token : AccountId) (src : DegenSrc) : Degen := mkDegen src token None.

(** price_oracle.rs:46-49, pyth_oracle.rs:37-40 is_price_valid: missing config, missing price and
    overflow all panic *)
Definition degen_expire (s : RateState) (d : Degen) : option N :=
  match dg_src d with
  | DPriceOracle _ => poc_expire <$> rs_price_cfg s
  | DPyth _ => pyc_expire <$> rs_pyth_cfg s
  end.
Definition degen_is_price_valid (s : RateState) (now : N) (d : Degen) : bool :=
  match degen_expire s d, dg_info d with
  | Some ex, Some (_, at_) => match cadd W64 at_ ex with Some x => now <=? x | None => false end
  | _, _ => false
  end.

(** price_oracle.rs:65-66, 111-112: 10u128.pow((price.decimals - decimals) as u32); the u8
    subtraction panics on underflow *)
Definition price_oracle_value (p : OPrice) (decimals : N) : option N :=
  k ← csub (op_decimals p) decimals;
  fd ← cpow W128 10 k;
  u128_ratio PRECISION (op_multiplier p) fd.

(** degen.rs:100-105 update_price_info *)
Definition degen_update (d : Degen) (price now : N) : Degen := mkDegen (dg_src d) (dg_token d) (Some (price, now)).

Inductive DegenAnswer := DAnsPrices (d : PriceData) | DAnsPyth (p : PythPrice).

(** price_oracle.rs:57-73, pyth_oracle.rs:48-67 set_price *)
Definition degen_set_price (s : RateState) (now : N) (d : Degen) (a : DegenAnswer) : option Degen :=
  match dg_src d, a with
  | DPriceOracle dec, DAnsPrices pd =>
      cfg ← rs_price_cfg s;
      _ ← price_data_assert_valid pd now (poc_recency cfg) (poc_stale cfg);
      '(t, pr) ← pd_prices pd !! 0%nat;
      _ ← ensure (String.eqb t (dg_token d));
      tp ← pr;
      price ← price_oracle_value tp dec;
      Some (degen_update d price now)
  | DPyth _, DAnsPyth p =>
      cfg ← rs_pyth_cfg s;
      _ ← ensure (0 <? py_price p)%Z;
      v ← pyth_is_valid p now (pyc_dur cfg); _ ← ensure v;
      x ← pyth_value p;
      price ← fit W128 x;
      Some (degen_update d price now)
  | _, _ => None
  end.

(** ** State changes *)
(** owner.rs:353-362 register_rated_token body, rate.rs:112-132 *)
Definition rs_register_rate (s : RateState) (k : RateKind) (token : AccountId) : option RateState :=
  match rs_rates s !! token with
  | Some _ => None
  | None => r ← rate_new k token; Some (rs_set_rates s (<[token := r]> (rs_rates s)))
  end.
(** rate.rs:136-155 *)
Definition rs_unregister_rate (s : RateState) (token : AccountId) : RateState :=
  rs_set_rates s (delete token (rs_rates s)).
(** rate.rs:157-171, sfrax_rate.rs:170-175 *)
Definition rs_update_extra (s : RateState) (token : AccountId) (i : SfraxInfo) : option RateState :=
  r ← rs_rates s !! token;
  match rt_kind r with
  | RSfrax _ =>
      _ ← ensure (sfrax_valid i);
      Some (rs_set_rates s (<[token := mkRate (RSfrax i) (rt_rate r) (rt_at r) (rt_contract r)]> (rs_rates s)))
  | _ => None
  end.
(** lib.rs:580-611 update_token_rate_callback after a successful oracle call ([None] answer: failed
    call or unparsable answer, the callback panics); a token unregistered meanwhile is skipped *)
Definition rs_rate_callback (s : RateState) (now : N) (token : AccountId) (a : RateAnswer) : option RateState :=
  match rs_rates s !! token with
  | Some r => r' ← rate_set now r a; Some (rs_set_rates s (<[token := r']> (rs_rates s)))
  | None => Some s
  end.

(** degen.rs:183-193 *)
Definition rs_register_degen (s : RateState) (token : AccountId) (src : DegenSrc) : option RateState :=
  match rs_degens s !! token with
  | Some _ => None
  | None => Some (rs_set_degens s (<[token := degen_new token src]> (rs_degens s)))
  end.
(** degen.rs:232-242: the stored price is dropped *)
Definition rs_update_degen (s : RateState) (token : AccountId) (src : DegenSrc) : option RateState :=
  _ ← rs_degens s !! token;
  Some (rs_set_degens s (<[token := degen_new token src]> (rs_degens s))).
(** degen.rs:208-218 *)
Definition rs_unregister_degen (s : RateState) (token : AccountId) : RateState :=
  rs_set_degens s (delete token (rs_degens s)).

(** degen.rs:195-206, 244-256, 220-230 *)
Inductive OracleConfig := CfgPrice (c : PriceOracleConfig) | CfgPyth (c : PythOracleConfig).
Definition rs_has_config (s : RateState) (c : OracleConfig) : bool :=
  match c with
  | CfgPrice _ => match rs_price_cfg s with Some _ => true | None => false end
  | CfgPyth _ => match rs_pyth_cfg s with Some _ => true | None => false end
  end.
Definition rs_put_config (s : RateState) (c : OracleConfig) : RateState :=
  match c with CfgPrice c => rs_set_price_cfg s (Some c) | CfgPyth c => rs_set_pyth_cfg s (Some c) end.
Definition rs_register_config (s : RateState) (c : OracleConfig) : option RateState :=
  _ ← ensure (negb (rs_has_config s c)); Some (rs_put_config s c).
Definition rs_update_config (s : RateState) (c : OracleConfig) : option RateState :=
  _ ← ensure (rs_has_config s c); Some (rs_put_config s c).
(** the key is a free string; only the two keys matter *)
Definition rs_unregister_config (s : RateState) (key : string) : RateState :=
  if String.eqb key "PriceOracleConfig" then rs_set_price_cfg s None
  else if String.eqb key "PythOracleConfig" then rs_set_pyth_cfg s None else s.

(** lib.rs:632-643 update_degen_token_price_callback on a successful oracle call (a failed one
    changes nothing) *)
Definition rs_degen_callback (s : RateState) (now : N) (token : AccountId) (a : DegenAnswer) : option RateState :=
  d ← rs_degens s !! token;
  d' ← degen_set_price s now d a;
  Some (rs_set_degens s (<[token := d']> (rs_degens s))).

(** price_oracle.rs:100-122 batch_update_degen_token_by_price_oracle_callback; [decs] is the map
    token -> decimals fixed when the price was requested *)
Fixpoint rs_batch_prices (s : RateState) (now : N) (decs : gmap AccountId N)
    (l : list (AccountId * option OPrice)) : option RateState :=
  match l with
  | [] => Some s
  | (t, Some p) :: r =>
      match decs !! t with
      | Some dec =>
          d ← rs_degens s !! t;
          price ← price_oracle_value p dec;
          rs_batch_prices (rs_set_degens s (<[t := degen_update d price now]> (rs_degens s))) now decs r
      | None => rs_batch_prices s now decs r
      end
  | (_, None) :: r => rs_batch_prices s now decs r
  end.
Definition rs_batch_price_callback (s : RateState) (now : N) (decs : gmap AccountId N) (pd : PriceData)
  : option RateState :=
  cfg ← rs_price_cfg s;
  _ ← price_data_assert_valid pd now (poc_recency cfg) (poc_stale cfg);
  rs_batch_prices s now decs (pd_prices pd).

(** pyth_oracle.rs:95-120 batch_update_degen_token_by_pyth_oracle_callback; [ids] is the map
    price id -> tokens fixed when the prices were requested, as a list (each id once) *)
Fixpoint rs_set_all (s : RateState) (now price : N) (ts : list AccountId) : option RateState :=
  match ts with
  | [] => Some s
  | t :: r =>
      d ← rs_degens s !! t;
      rs_set_all (rs_set_degens s (<[t := degen_update d price now]> (rs_degens s))) now price r
  end.
Fixpoint rs_batch_pyth (s : RateState) (now dur : N) (prices : gmap string PythPrice)
    (ids : list (string * list AccountId)) : option RateState :=
  match ids with
  | [] => Some s
  | (i, ts) :: r =>
      match prices !! i with
      | Some p =>
          v ← pyth_is_valid p now dur;
          if (v : bool) then
            x ← pyth_value p;
            price ← fit W128 x;
            s' ← rs_set_all s now price ts;
            rs_batch_pyth s' now dur prices r
          else rs_batch_pyth s now dur prices r
      | None => rs_batch_pyth s now dur prices r
      end
  end.
Definition rs_batch_pyth_callback (s : RateState) (now : N) (ids : list (string * list AccountId))
    (prices : gmap string PythPrice) : option RateState :=
  cfg ← rs_pyth_cfg s;
  rs_batch_pyth s now (pyc_dur cfg) prices ids.

(** degen.rs:296-319 internal_batch_update_degen_token_price: what can panic in it is a token that
    is not registered and a missing config; the rest is sending the oracle requests.  Result: the
    maps handed to the callbacks. *)
Fixpoint rs_split_degens (s : RateState) (ts : list AccountId)
  : option (gmap AccountId N * list (string * AccountId)) :=
  match ts with
  | [] => Some (∅, [])
  | t :: r =>
      d ← rs_degens s !! t;
      '(a, b) ← rs_split_degens s r;
      match dg_src d with
      | DPriceOracle dec => Some (<[t := dec]> a, b)
      | DPyth i => Some (a, (i, t) :: b)
      end
  end.
Definition rs_batch_update_request (s : RateState) (ts : list AccountId) : option unit :=
  '(a, b) ← rs_split_degens s ts;
  _ ← (if decide (a = ∅) then Some tt else _c ← rs_price_cfg s; Some tt);
  match b with [] => Some tt | _ :: _ => _c ← rs_pyth_cfg s; Some tt end.

(** ** What the pools read
    rated_swap/mod.rs:94-105 get_rates (an unregistered token has rate 1), 107-111;
    rate.rs:214-232 is_global_rate_valid (an unregistered token is always valid);
    degen_swap/mod.rs:94-107, degen.rs:258-261, 290-293 *)
Definition rs_pool_env (s : RateState) (now : N) (k : StableKind) : PoolEnv :=
  match k with
  | KDegen =>
      mkPoolEnv now
        (fun t => d ← rs_degens s !! t; fst <$> dg_info d)
        (fun t => match rs_degens s !! t with Some d => degen_is_price_valid s now d | None => false end)
  | _ =>
      mkPoolEnv now
        (fun t => Some match rs_rates s !! t with Some r => rt_rate r | None => PRECISION end)
        (fun t => match rs_rates s !! t with Some r => rate_are_actual now r | None => true end)
  end.
