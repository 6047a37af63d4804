(** * Model of ref-exchange/src/stable_swap/mod.rs, rated_swap/mod.rs and degen_swap/mod.rs

    The three pool kinds are the same code up to the constants, the width of the wide integers,
    the source of the rates and the assertion that the rates are not expired.  One record with a
    [kind] covers them.  "stable" / "rated" / "degen" line numbers refer to the three mod.rs files.
    The field [volumes] (never written any more) is omitted; events written to the log are not
    modelled except for the conversions they perform, which can panic. *)
From Verif Require Import Base SimplePool StableMath.

Inductive StableKind := KStable | KRated | KDegen.
Global Instance StableKind_eq_dec : EqDecision StableKind.
Proof. solve_decision. Defined.

(** TARGET_DECIMAL: stable 18, rated 23, degen 24 *)
Definition target_decimal (k : StableKind) : N := match k with KStable => 18 | _ => 24 end.
(** MIN_DECIMAL and MAX_DECIMAL: stable 16-17, rated 24-25 *)
Definition MIN_DECIMAL : N := 1.
Definition MAX_DECIMAL : N := 24.
(** MIN_RESERVE: stable 19 (10^15), rated 27 (10^21) *)
Definition min_reserve (k : StableKind) : N := match k with KStable => 10 ^ 15 | _ => 10 ^ 21 end.
(** U256 in stable_swap/math.rs, U384 in the other two *)
Definition wide (k : StableKind) : N := match k with KStable => W256 | _ => W384 end.

(** stable 22-45 StableSwapPool, rated 31-55 RatedSwapPool, degen DegenSwapPool *)
Record StablePool := mkStablePool {
  st_kind : StableKind;
  st_tokens : list AccountId;         (* token_account_ids *)
  st_decimals : list N;               (* token_decimals *)
  st_c : list Balance;                (* c_amounts *)
  st_fee : N;                         (* total_fee *)
  st_shares : gmap AccountId Balance; (* shares *)
  st_supply : Balance;                (* shares_total_supply *)
  st_init_amp : N;                    (* init_amp_factor *)
  st_target_amp : N;                  (* target_amp_factor *)
  st_init_time : N;                   (* init_amp_time *)
  st_stop_time : N;                   (* stop_amp_time *)
}.

Definition st_set_c (p : StablePool) x :=
  mkStablePool (st_kind p) (st_tokens p) (st_decimals p) x (st_fee p) (st_shares p) (st_supply p)
    (st_init_amp p) (st_target_amp p) (st_init_time p) (st_stop_time p).
Definition st_set_fee (p : StablePool) x :=
  mkStablePool (st_kind p) (st_tokens p) (st_decimals p) (st_c p) x (st_shares p) (st_supply p)
    (st_init_amp p) (st_target_amp p) (st_init_time p) (st_stop_time p).
Definition st_set_shares (p : StablePool) x :=
  mkStablePool (st_kind p) (st_tokens p) (st_decimals p) (st_c p) (st_fee p) x (st_supply p)
    (st_init_amp p) (st_target_amp p) (st_init_time p) (st_stop_time p).
Definition st_set_supply (p : StablePool) x :=
  mkStablePool (st_kind p) (st_tokens p) (st_decimals p) (st_c p) (st_fee p) (st_shares p) x
    (st_init_amp p) (st_target_amp p) (st_init_time p) (st_stop_time p).
Definition st_set_amp (p : StablePool) ia ta it sto :=
  mkStablePool (st_kind p) (st_tokens p) (st_decimals p) (st_c p) (st_fee p) (st_shares p)
    (st_supply p) ia ta it sto.

(** What a pool reads from its environment: env::block_timestamp(), the stored rate of a token
    (rated: global_get_rate or PRECISION, rated 94-105; degen: global_get_degen(..).stored_degen,
    degen 94-101, which panics for an unregistered token) and whether it is still valid
    (is_global_rate_valid / is_global_degen_price_valid).  Rates.v models how they are stored. *)
Record PoolEnv := mkPoolEnv {
  pe_now : N;
  pe_rate : AccountId -> option N;
  pe_valid : AccountId -> bool;
}.

(** stable 48-78 new, rated 58-88, degen 58-88 *)
Definition st_new (k : StableKind) (tokens : list AccountId) (decimals : list N) (amp total_fee : N)
  : option StablePool :=
  _ ← ensure (forallb (fun d => (d <=? MAX_DECIMAL) && (MIN_DECIMAL <=? d)) decimals);
  _ ← ensure ((MIN_AMP <=? amp) && (amp <=? MAX_AMP));
  _ ← ensure (total_fee <? FEE_DIVISOR);
  Some (mkStablePool k tokens decimals (repeat 0 (length tokens)) total_fee ∅ 0 amp amp 0 0).

(** stable 80-82 modify_total_fee *)
Definition st_modify_total_fee (p : StablePool) (fee : N) : StablePool := st_set_fee p fee.

(** rated 94-105 get_rates, degen 94-101 get_degens; a stable pool has no rates, which is the
    constant rate PRECISION (StableMath.v) *)
Definition st_get_rates (p : StablePool) (e : PoolEnv) : option (list N) :=
  match st_kind p with
  | KStable => Some (map (fun _ => PRECISION) (st_tokens p))
  | _ => mapM_ (pe_rate e) (st_tokens p)
  end.

(** rated 107-111 assert_rates_valid, degen 103-107 assert_degens_valid; no such check in a
    stable pool *)
Definition st_assert_rates_valid (p : StablePool) (e : PoolEnv) : option unit :=
  match st_kind p with
  | KStable => Some tt
  | _ => ensure (forallb (pe_valid e) (st_tokens p))
  end.

(** stable 135-148 c_amount_to_amount for a token with [d] decimals (rated 143-149: only the
    first branch, decimals never exceed the target there) *)
Definition from_c (k : StableKind) (d c : N) : option N :=
  if d <=? target_decimal k then
    f ← cpow W128 10 (target_decimal k - d); cdiv c f
  else
    f ← cpow W128 10 (d - target_decimal k); cmul W128 c f.

(** stable 120-133 amount_to_c_amount (rated 135-141) *)
Definition to_c (k : StableKind) (d a : N) : option N :=
  if d <=? target_decimal k then
    f ← cpow W128 10 (target_decimal k - d); cmul W128 a f
  else
    f ← cpow W128 10 (d - target_decimal k); cdiv a f.

Fixpoint conv_all (f : N -> N -> option N) (decimals xs : list N) : option (list N) :=
  match decimals, xs with
  | [], [] => Some []
  | d :: ds, x :: xs' => y ← f d x; ys ← conv_all f ds xs'; Some (y :: ys)
  | _, _ => None
  end.

(** stable 84-100 get_amounts (rated 113-122) *)
Definition st_get_amounts (p : StablePool) : option (list N) :=
  conv_all (from_c (st_kind p)) (st_decimals p) (st_c p).
(** stable 102-118 amounts_to_c_amounts (rated 124-132); the callers check the length *)
Definition st_amounts_to_c (p : StablePool) (amounts : list N) : option (list N) :=
  conv_all (to_c (st_kind p)) (st_decimals p) amounts.
Definition st_to_c (p : StablePool) (a : N) (i : nat) : option N :=
  d ← vget (st_decimals p) i; to_c (st_kind p) d a.
Definition st_from_c (p : StablePool) (c : N) (i : nat) : option N :=
  d ← vget (st_decimals p) i; from_c (st_kind p) d c.

(** stable 150-156 assert_min_reserve *)
Definition assert_min_reserve (p : StablePool) (x : N) : option unit :=
  ensure (min_reserve (st_kind p) <=? x).

(** stable 166-174 get_invariant, rated 167-176 get_invariant_with_rates *)
Definition st_curve (p : StablePool) (now : N) (rates : list N) : Curve :=
  mkCurve (st_init_amp p) (st_target_amp p) now (st_init_time p) (st_stop_time p) rates
    (wide (st_kind p)).

(** stable 158-164 get_amp; rated 159-165 and degen 155-161 read the rates for it, so that a degen pool panics if a price is
    missing (Listing.v) *)
Definition st_get_amp (p : StablePool) (now : N) : N :=
  default 0 (compute_amp_factor (st_curve p now [])).

(** stable 177-182 token_index *)
Definition st_token_index (p : StablePool) (t : AccountId) : option nat := position t (st_tokens p).

(** stable 591-599 mint_shares *)
Definition st_mint_shares (p : StablePool) (a : AccountId) (shares : Balance) (is_view : bool)
  : option StablePool :=
  if shares =? 0 then Some p else
  s ← cadd W128 (st_supply p) shares;
  let p1 := st_set_supply p s in
  if is_view then Some p1 else
  m ← add_to_collection (st_shares p1) a shares;
  Some (st_set_shares p1 m).

(** stable 209-243 calc_add_liquidity, rated 210-247 calc_add_liquidity_with_rates.
    The validity of the rates is only asserted for the first deposit. *)
Definition st_calc_add_liquidity (p : StablePool) (e : PoolEnv) (rates amounts : list N)
    (f : AdminFees) : option (N * N) :=
  let cv := st_curve p (pe_now e) rates in
  c_amounts ← st_amounts_to_c p amounts;
  if st_supply p =? 0 then
    _ ← st_assert_rates_valid p e;
    _ ← ensure (forallb (fun c => 0 <? c) c_amounts);
    d ← compute_d_with_rates cv c_amounts;
    s ← fit W128 d;
    Some (s, 0)
  else
    compute_lp_amount_for_deposit cv c_amounts (st_c p) (st_supply p) (fees_new (st_fee p) f).

(** stable 280-304 and 420-444: mint the admin's and the referrer's part of the fee shares *)
Definition st_mint_fee_part (p : StablePool) (fee_part : N) (f : AdminFees) (is_view : bool)
  : option StablePool :=
  if 0 <? fee_part then
    admin_share ← u128_ratio fee_part (admin_fee_bps f) FEE_DIVISOR;
    '(rs0, referral) ← calc_referral_share f admin_share;
    let rs := if (0 <? rs0) && negb (bool_decide (is_Some (st_shares p !! referral))) then 0 else rs0 in
    p1 ← st_mint_shares p referral rs is_view;
    rest ← csub admin_share rs;
    st_mint_shares p1 (exchange_id f) rest is_view
  else Some p.

(** stable 248-307 add_liquidity, rated 271-333, degen *)
Definition st_add_liquidity (p : StablePool) (e : PoolEnv) (sender : AccountId) (amounts : list N)
    (min_shares : N) (f : AdminFees) (is_view : bool) : option (StablePool * N) :=
  _ ← ensure (length amounts =? length (st_tokens p))%nat;
  rates ← st_get_rates p e;
  '(new_shares, fee_part) ← st_calc_add_liquidity p e rates amounts f;
  _ ← ensure (min_shares <=? new_shares);
  c_amounts ← st_amounts_to_c p amounts;
  c' ← vadd (st_c p) c_amounts;
  p1 ← st_mint_shares (st_set_c p c') sender new_shares is_view;
  p2 ← st_mint_fee_part p1 fee_part f is_view;
  Some (p2, new_shares).

(** stable 329-340: one iteration of the loop: (amount paid in raw units, c_amount left) *)
Definition st_redeem (k : StableKind) (supply shares d c min_amount : N) : option (N * N) :=
  x ← cmul W256 c shares;
  q ← cdiv x supply;
  r ← fit W128 q;
  left ← csub c r;
  _ ← ensure (min_reserve k <=? left);
  amount ← from_c k d r;
  _ ← ensure (min_amount <=? amount);
  Some (amount, left).

Fixpoint st_redeem_all (k : StableKind) (supply shares : N) (ds cs mins : list N)
  : option (list N * list N) :=
  match ds, cs, mins with
  | [], [], [] => Some ([], [])
  | d :: ds', c :: cs', m :: mins' =>
      '(a, l) ← st_redeem k supply shares d c m;
      '(als, ls) ← st_redeem_all k supply shares ds' cs' mins';
      Some (a :: als, l :: ls)
  | _, _, _ => None
  end.

(** stable 602-612 burn_shares on the map of shares *)
Definition st_burn (m : gmap AccountId N) (a : AccountId) (prev shares : N) : gmap AccountId N :=
  if shares =? 0 then m else <[a := prev - shares]> m.

(** stable 310-356 remove_liquidity_by_shares, rated 336-382 *)
Definition st_remove_by_shares (p : StablePool) (sender : AccountId) (shares : Balance)
    (min_amounts : list Balance) (is_view : bool) : option (StablePool * list Balance) :=
  _ ← ensure (length min_amounts =? length (st_tokens p))%nat;
  m ← (if is_view then Some (st_shares p) else
         prev ← st_shares p !! sender;
         _ ← ensure (shares <=? prev);
         Some (st_burn (st_shares p) sender prev shares));
  '(amounts, c') ← st_redeem_all (st_kind p) (st_supply p) shares (st_decimals p) (st_c p) min_amounts;
  s ← csub (st_supply p) shares;
  Some (st_set_supply (st_set_shares (st_set_c p c') m) s, amounts).

(** stable 361-450 remove_liquidity_by_tokens, rated 414-504, degen *)
Definition st_remove_by_tokens (p : StablePool) (e : PoolEnv) (sender : AccountId)
    (amounts : list Balance) (max_burn_shares : N) (f : AdminFees) (is_view : bool)
  : option (StablePool * N) :=
  _ ← ensure (length amounts =? length (st_tokens p))%nat;
  c_amounts ← st_amounts_to_c p amounts;
  c' ← vsub (st_c p) c_amounts;
  _ ← ensure (forallb (fun x => min_reserve (st_kind p) <=? x) c');
  _ ← st_assert_rates_valid p e;
  rates ← st_get_rates p e;
  '(burn, fee_part) ← compute_lp_amount_for_withdraw (st_curve p (pe_now e) rates) c_amounts (st_c p)
                        (st_supply p) (fees_new (st_fee p) f);
  m ← (if is_view then Some (st_shares p) else
         prev ← st_shares p !! sender;
         _ ← ensure (burn <=? prev);
         _ ← ensure (burn <=? max_burn_shares);
         Some (st_burn (st_shares p) sender prev burn));
  s ← csub (st_supply p) burn;
  let p1 := st_set_supply (st_set_shares (st_set_c p c') m) s in
  p2 ← st_mint_fee_part p1 fee_part f is_view;
  Some (p2, burn).

(** stable 452-474 internal_get_return, rated 521-540 internal_get_return_with_rates *)
Definition st_internal_get_return (p : StablePool) (now : N) (rates : list N) (ix : nat)
    (amount_in : N) (iy : nat) (f : AdminFees) : option SwapResult :=
  c_in ← st_to_c p amount_in ix;
  swap_to (st_curve p now rates) ix c_in iy (st_c p) (fees_new (st_fee p) f).

(** stable 554-589 distribute_admin_fee, rated 644-679 *)
Definition st_distribute_admin_fee (p : StablePool) (e : PoolEnv) (exchange referral : AccountId)
    (referral_bps : N) (tid : nat) (c_amount : N) (is_view : bool) : option StablePool :=
  rates ← st_get_rates p e;
  deposit ← vset (repeat 0 (length (st_c p))) tid c_amount;
  '(new_shares, _fee) ← compute_lp_amount_for_deposit (st_curve p (pe_now e) rates) deposit (st_c p)
                     (st_supply p) fees_zero;
  old ← vget (st_c p) tid;
  v ← cadd W128 old c_amount;
  c' ← vset (st_c p) tid v;
  rs ← (if 0 <? referral_bps then u128_ratio new_shares referral_bps FEE_DIVISOR else Some 0);
  p1 ← st_mint_shares (st_set_c p c') referral rs is_view;
  rest ← csub new_shares rs;
  st_mint_shares p1 exchange rest is_view.

(** stable 476-551 swap, rated 565-640, degen *)
Definition st_swap (p : StablePool) (e : PoolEnv) (token_in : AccountId) (amount_in : Balance)
    (token_out : AccountId) (min_amount_out : Balance) (f : AdminFees) (is_view : bool)
  : option (StablePool * Balance) :=
  _ ← ensure (negb (String.eqb token_in token_out));
  ix ← st_token_index p token_in;
  iy ← st_token_index p token_out;
  _ ← st_assert_rates_valid p e;
  rates ← st_get_rates p e;
  r ← st_internal_get_return p (pe_now e) rates ix amount_in iy f;
  amount_swapped ← st_from_c p (sr_swapped r) iy;
  _ ← ensure (min_amount_out <=? amount_swapped);
  _ ← (if is_view then Some tt else
         _ ← st_from_c p (sr_fee r) iy; _ ← st_from_c p (sr_admin_fee r) iy; Some tt);
  c1 ← vset (st_c p) ix (sr_new_source r);
  c2 ← vset c1 iy (sr_new_destination r);
  let p1 := st_set_c p c2 in
  _ ← assert_min_reserve p1 (sr_new_destination r);
  p2 ← (if (0 <? admin_fee_bps f) && (0 <? sr_admin_fee r) then
          match referral_info f with
          | Some (rid, rfee) =>
              if bool_decide (is_Some (st_shares p1 !! rid))
              then st_distribute_admin_fee p1 e (exchange_id f) rid rfee iy (sr_admin_fee r) is_view
              else st_distribute_admin_fee p1 e (exchange_id f) rid 0 iy (sr_admin_fee r) is_view
          | None => st_distribute_admin_fee p1 e (exchange_id f) (exchange_id f) 0 iy
                      (sr_admin_fee r) is_view
          end
        else Some p1);
  Some (p2, amount_swapped).

(** rated 261, 396, 556, degen 263, 398, 558: [rates.as_ref().unwrap_or(&self.get_rates())].  The argument of [unwrap_or] is
    evaluated in any case: a degen pool panics if a price is missing. *)
Definition st_given_rates (p : StablePool) (e : PoolEnv) (given : option (list N)) : option (list N) :=
  stored ← st_get_rates p e; Some (default stored given).

(** rated 249-268 predict_add_rated_liquidity (and degen); [given = None]: the stored rates *)
Definition st_predict_add (p : StablePool) (e : PoolEnv) (amounts : list N)
    (given : option (list N)) (f : AdminFees) : option N :=
  _ ← ensure (length amounts =? length (st_tokens p))%nat;
  rates ← st_given_rates p e given;
  '(new_shares, _fee) ← st_calc_add_liquidity p e rates amounts f;
  Some new_shares.

(** rated 384-409 predict_remove_rated_liquidity_by_tokens (and degen) *)
Definition st_predict_remove_by_tokens (p : StablePool) (e : PoolEnv) (amounts : list N)
    (given : option (list N)) (f : AdminFees) : option N :=
  c_amounts ← st_amounts_to_c p amounts;
  c' ← vsub (st_c p) c_amounts;
  _ ← ensure (forallb (fun x => min_reserve (st_kind p) <=? x) c');
  rates ← st_given_rates p e given;
  '(burn, _fee) ← compute_lp_amount_for_withdraw (st_curve p (pe_now e) rates) c_amounts (st_c p)
                 (st_supply p) (fees_new (st_fee p) f);
  Some burn.

(** rated 543-561 get_rated_return, degen get_degen_return *)
Definition st_get_rated_return (p : StablePool) (e : PoolEnv) (token_in : AccountId) (amount_in : N)
    (token_out : AccountId) (given : option (list N)) (f : AdminFees) : option N :=
  _ ← ensure (negb (String.eqb token_in token_out));
  ix ← st_token_index p token_in;
  iy ← st_token_index p token_out;
  rates ← st_given_rates p e given;
  r ← st_internal_get_return p (pe_now e) rates ix amount_in iy f;
  st_from_c p (sr_swapped r) iy.

(** degen 204-208 get_tvl: the [sum] is a u128 sum *)
Definition st_get_tvl (p : StablePool) (e : PoolEnv) : option N :=
  rates ← st_get_rates p e;
  x ← rate_balances (st_c p) rates;
  csum W128 0 (map (fun v => v / 10 ^ 24) x).

(** stable 195-205 get_share_price *)
Definition st_get_share_price (p : StablePool) (e : PoolEnv) : option N :=
  match st_kind p with
  | KStable =>
      s ← csum W128 0 (st_c p);
      x ← cmul W256 s 100000000;
      fit W128 (default 100000000 (cdiv x (st_supply p)))
  | _ =>
      rates ← st_get_rates p e;
      d ← compute_d_with_rates (st_curve p (pe_now e) rates) (st_c p);
      x ← cmul W384 d 100000000;
      fit W128 (default 100000000 (cdiv x (st_supply p)))
  end.

(** stable 616-618 share_has_registered *)
Definition st_share_has_registered (p : StablePool) (a : AccountId) : bool :=
  bool_decide (is_Some (st_shares p !! a)).

(** stable 622-627 share_register *)
Definition st_share_register (p : StablePool) (a : AccountId) : option StablePool :=
  _ ← ensure (negb (st_share_has_registered p a));
  Some (st_set_shares p (<[a := 0]> (st_shares p))).

(** stable 631-634 share_unregister *)
Definition st_share_unregister (p : StablePool) (a : AccountId) : option StablePool :=
  s ← st_shares p !! a;
  _ ← ensure (s =? 0);
  Some (st_set_shares p (delete a (st_shares p))).

(** stable 637-649 share_transfer *)
Definition st_share_transfer (p : StablePool) (sender receiver : AccountId) (amount : Balance)
  : option StablePool :=
  b ← st_shares p !! sender;
  nb ← csub b amount;
  let m1 := <[sender := nb]> (st_shares p) in
  bo ← m1 !! receiver;
  nbo ← cadd W128 bo amount;
  Some (st_set_shares p (<[receiver := nbo]> m1)).

(** stable 652-654 share_balance_of *)
Definition st_share_balance_of (p : StablePool) (a : AccountId) : Balance :=
  shares_get (st_shares p) a.

(** stable 667-705 ramp_amplification, rated 757-788.  Times are u64, amplification u128; a degen
    pool also panics when a rate is missing (get_degens). *)
Definition st_ramp_amplification (p : StablePool) (e : PoolEnv) (future_amp future_time : N)
  : option StablePool :=
  let now := pe_now e in
  t1 ← cadd W64 (st_init_time p) MIN_RAMP_DURATION;
  _ ← ensure (t1 <=? now);
  t2 ← cadd W64 now MIN_RAMP_DURATION;
  _ ← ensure (t2 <=? future_time);
  rates ← st_get_rates p e;
  amp ← compute_amp_factor (st_curve p now rates);
  _ ← ensure ((0 <? future_amp) && (future_amp <? MAX_AMP));
  _ ← (if amp <=? future_amp then
         x ← cmul W128 amp MAX_AMP_CHANGE; ensure (future_amp <=? x)
       else
         x ← cmul W128 future_amp MAX_AMP_CHANGE; ensure (amp <=? x));
  Some (st_set_amp p amp future_amp now future_time).

(** stable 708-724 stop_ramp_amplification, rated 791-800 *)
Definition st_stop_ramp (p : StablePool) (e : PoolEnv) : option StablePool :=
  rates ← st_get_rates p e;
  amp ← compute_amp_factor (st_curve p (pe_now e) rates);
  Some (st_set_amp p amp amp (pe_now e) (pe_now e)).
