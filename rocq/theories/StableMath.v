(** * Model of ref-exchange/src/stable_swap/math.rs, rated_swap/math.rs and degen_swap/math.rs

    The three files are the same code up to (a) the width of the wide integers (U256 in
    stable_swap, U384 in the two others) and (b) the conversion of balances with per-token rates
    ("rates" in rated_swap, "degens" in degen_swap, none in stable_swap).  One model covers the
    three: [cv_w] is the width and [cv_rates] the rates.  A stable pool uses the constant rate
    PRECISION, for which the conversions [mul_rate] and [div_rate] are the identity
    (lemmas [mul_rate_unit], [div_rate_unit] in StableMathProofs.v).
    Line numbers "stable" refer to stable_swap/math.rs, "rated" to rated_swap/math.rs
    (degen_swap/math.rs has the same line numbers as rated_swap/math.rs). *)
From Verif Require Import Base SimplePool.

(** stable 8-15: MIN_RAMP_DURATION (nanoseconds), MIN_AMP, MAX_AMP, MAX_AMP_CHANGE *)
Definition MIN_RAMP_DURATION : N := 86400 * 1000000000.
Definition MIN_AMP : N := 1.
Definition MAX_AMP : N := 1000000.
Definition MAX_AMP_CHANGE : N := 10.

(** rated_swap/mod.rs:26 PRECISION = 10^24 *)
Definition PRECISION : N := 10 ^ 24.

(** stable 18-21 Fees *)
Record Fees := mkFees { fe_trade : N; fe_admin : N }.
(** stable 24-29 Fees::new *)
Definition fees_new (total_fee : N) (f : AdminFees) : Fees := mkFees total_fee (admin_fee_bps f).
(** stable 31-36 Fees::zero *)
Definition fees_zero : Fees := mkFees 0 0.
(** stable 38-40 trade_fee *)
Definition trade_fee_of (f : Fees) (amount : N) : option N := u128_ratio amount (fe_trade f) FEE_DIVISOR.
(** stable 42-44 admin_trade_fee *)
Definition admin_trade_fee (f : Fees) (amount : N) : option N := u128_ratio amount (fe_admin f) FEE_DIVISOR.
(** stable 48-51 normalized_trade_fee; the arithmetic on fees is u32 *)
Definition normalized_trade_fee (f : Fees) (n amount : N) : option N :=
  t ← cmul W32 (fe_trade f) n;
  m ← csub n 1;
  d ← cmul W32 4 m;
  adjusted ← cdiv t d;
  u128_ratio amount adjusted FEE_DIVISOR.

(** stable 70-81 StableSwap, rated 90-103 RatedSwap / DegenSwap, with the integer width added *)
Record Curve := mkCurve {
  cv_init : N;      (* initial_amp_factor *)
  cv_target : N;    (* target_amp_factor *)
  cv_now : N;       (* current_ts *)
  cv_start : N;     (* start_ramp_ts *)
  cv_stop : N;      (* stop_ramp_ts *)
  cv_rates : list N;   (* rates / degens *)
  cv_w : N;         (* bound of the wide integers: 2^256 or 2^384 *)
}.

(** rated 125-128 mul_rate (u128 * u128 never overflows U384) *)
Definition mul_rate (amount rate : N) : option N := fit W128 (amount * rate / PRECISION).
(** rated 131-134 div_rate; U384 division by zero panics *)
Definition div_rate (amount rate : N) : option N :=
  q ← cdiv (amount * PRECISION) rate; fit W128 q.
(** rated 137-141 rate_balances: zip stops at the shorter vector *)
Fixpoint rate_balances (amounts rates : list N) : option (list N) :=
  match amounts, rates with
  | a :: amounts', r :: rates' =>
      x ← mul_rate a r; xs ← rate_balances amounts' rates'; Some (x :: xs)
  | _, _ => Some []
  end.

(** stable 101-134 compute_amp_factor (u64 times, u128 amplification) *)
Definition compute_amp_factor (cv : Curve) : option N :=
  if cv_now cv <? cv_stop cv then
    time_range ← csub (cv_stop cv) (cv_start cv);
    time_delta ← csub (cv_now cv) (cv_start cv);
    if cv_init cv <=? cv_target cv then
      amp_range ← csub (cv_target cv) (cv_init cv);
      x ← cmul W128 amp_range time_delta;
      amp_delta ← cdiv x time_range;
      cadd W128 (cv_init cv) amp_delta
    else
      amp_range ← csub (cv_init cv) (cv_target cv);
      x ← cmul W128 amp_range time_delta;
      amp_delta ← cdiv x time_range;
      csub (cv_init cv) amp_delta
  else Some (cv_target cv).

(** stable 149-153: the inner loop [d_prod = d_prod * d / (c_amount * n_coins)] *)
Fixpoint d_prod_loop (w n d d_prod : N) (amounts : list N) : option N :=
  match amounts with
  | [] => Some d_prod
  | c :: rest =>
      x ← cmul w d_prod d;
      y ← cmul W128 c n;
      d_prod' ← cdiv x y;
      d_prod_loop w n d d_prod' rest
  end.

(** stable 147-168: one Newton step for D *)
Definition d_step (w n amp sum_x : N) (amounts : list N) (d : N) : option N :=
  d_prod ← d_prod_loop w n d d amounts;
  nn ← cpow W128 n n;
  ann ← cmul W128 amp nn;
  leverage ← cmul w sum_x ann;
  a ← cmul w d_prod n;
  b ← cadd w a leverage;
  numerator ← cmul w d b;
  ann1 ← csub ann 1;
  e ← cmul w d ann1;
  g ← cmul w d_prod (n + 1);
  denominator ← cadd w e g;
  cdiv numerator denominator.

(** "Equality with the precision of 1", stable 170-177 and 280-286 *)
Definition close (a b : N) : bool := if b <? a then a - b <=? 1 else b - a <=? 1.

(** stable 147-178: the loop, at most [fuel] times *)
Fixpoint d_loop (fuel : nat) (w n amp sum_x : N) (amounts : list N) (d : N) : option N :=
  match fuel with
  | O => Some d
  | S fuel' =>
      d' ← d_step w n amp sum_x amounts d;
      if close d' d then Some d' else d_loop fuel' w n amp sum_x amounts d'
  end.

(** stable 139-181 compute_d (rated 187-229) *)
Definition compute_d (cv : Curve) (amounts : list N) : option N :=
  sum_x ← csum W128 0 amounts;
  if sum_x =? 0 then Some 0 else
  amp ← compute_amp_factor cv;
  d_loop 256 (cv_w cv) (N.of_nat (length amounts)) amp sum_x amounts sum_x.

(** rated 180-182 compute_d_with_rates *)
Definition compute_d_with_rates (cv : Curve) (c_amounts : list N) : option N :=
  x ← rate_balances c_amounts (cv_rates cv); compute_d cv x.

(** stable 205-219 / 314-329: the balance of one token after the fee on the difference between
    it and the ideal balance [d_1 * old / d_0] *)
Definition charge_difference (cv : Curve) (f : Fees) (n d_0 d_1 old new : N) : option N :=
  x ← cmul (cv_w cv) d_1 old;
  q ← cdiv x d_0;
  ideal ← fit W128 q;
  let difference := if new <? ideal then ideal - new else new - ideal in
  fee ← normalized_trade_fee f n difference;
  csub new fee.

Fixpoint charge_all (cv : Curve) (f : Fees) (n d_0 d_1 : N) (old new : list N)
  : option (list N) :=
  match old, new with
  | [], [] => Some []
  | o :: old', b :: new' =>
      x ← charge_difference cv f n d_0 d_1 o b;
      xs ← charge_all cv f n d_0 d_1 old' new';
      Some (x :: xs)
  | _, _ => None
  end.

(** [U256::from(supply) * part / d_0).as_u128()], stable 229-238 and 342-349 *)
Definition share_part (w supply part d_0 : N) : option N :=
  x ← cmul w supply part; q ← cdiv x d_0; fit W128 q.

(** stable 185-241 compute_lp_amount_for_deposit (rated 233-289): (minted, fee part).
    [new_balances] is filled by index from [deposit_c_amounts]; all callers pass a vector of the
    length of the pool (StablePool.v), other lengths are an index panic or do not occur. *)
Definition compute_lp_amount_for_deposit (cv : Curve) (deposit old : list N) (supply : N) (f : Fees)
  : option (N * N) :=
  let n := N.of_nat (length old) in
  d_0 ← compute_d_with_rates cv old;
  new ← vadd old deposit;
  d_1 ← compute_d_with_rates cv new;
  _ ← ensure (d_0 <? d_1);
  new2 ← charge_all cv f n d_0 d_1 old new;
  d_2 ← compute_d_with_rates cv new2;
  p2 ← csub d_2 d_0;
  mint ← share_part (cv_w cv) supply p2 d_0;
  p1 ← csub d_1 d_0;
  diff ← share_part (cv_w cv) supply p1 d_0;
  fee ← csub diff mint;
  Some (mint, fee).

(** stable 259-267: sum and product over the tokens other than x and y *)
Fixpoint y_loop (w d : N) (i ix iy : nat) (amounts : list N) (s c : N) : option (N * N) :=
  match amounts with
  | [] => Some (s, c)
  | a :: rest =>
      if negb (i =? ix)%nat && negb (i =? iy)%nat then
        s' ← cadd W128 s a;
        x ← cmul w c d;
        c' ← cdiv x a;
        y_loop w d (S i) ix iy rest s' c'
      else y_loop w d (S i) ix iy rest s c
  end.

(** stable 276-280: one Newton step for y *)
Definition y_step (w b c d y : N) : option N :=
  y2 ← cpow w y 2;
  numerator ← cadd w y2 c;
  t ← cmul w y 2;
  t2 ← cadd w t b;
  denominator ← csub t2 d;
  cdiv numerator denominator.

Fixpoint y_newton (fuel : nat) (w b c d y : N) : option N :=
  match fuel with
  | O => Some y
  | S fuel' =>
      y' ← y_step w b c d y;
      if close y' y then Some y' else y_newton fuel' w b c d y'
  end.

(** stable 252-271: the coefficients (b, c, d) of [y^2 + (b - d) y = c] *)
Definition y_coeffs (cv : Curve) (x : N) (amounts : list N) (ix iy : nat) : option (N * N * N) :=
  let n := N.of_nat (length amounts) in
  let w := cv_w cv in
  amp ← compute_amp_factor cv;
  nn ← cpow W128 n n;
  ann ← cmul W128 amp nn;
  d ← compute_d cv amounts;
  dd ← cmul w d d;
  c0 ← cdiv dd x;
  '(s, c1) ← y_loop w d 0 ix iy amounts x c0;
  c2 ← cmul w c1 d;
  den ← cmul W128 ann nn;
  c ← cdiv c2 den;
  q ← cdiv d ann;
  b ← cadd w q s;
  Some (b, c, d).

(** stable 245-290 compute_y (rated 293-338) *)
Definition compute_y (cv : Curve) (x : N) (amounts : list N) (ix iy : nat) : option N :=
  '(b, c, d) ← y_coeffs cv x amounts ix iy;
  y_newton 256 (cv_w cv) b c d d.

(** stable 296-354 compute_lp_amount_for_withdraw (rated 344-402): (burned, fee part) *)
Fixpoint vsub (xs ys : list N) : option (list N) :=
  match xs, ys with
  | [], [] => Some []
  | x :: xs', y :: ys' => z ← csub x y; zs ← vsub xs' ys'; Some (z :: zs)
  | _, _ => None
  end.

Definition compute_lp_amount_for_withdraw (cv : Curve) (withdraw old : list N) (supply : N) (f : Fees)
  : option (N * N) :=
  let n := N.of_nat (length old) in
  d_0 ← compute_d_with_rates cv old;
  new ← vsub old withdraw;
  d_1 ← compute_d_with_rates cv new;
  _ ← ensure (d_1 <? d_0);
  new2 ← charge_all cv f n d_0 d_1 old new;
  d_2 ← compute_d_with_rates cv new2;
  p2 ← csub d_0 d_2;
  burn ← share_part (cv_w cv) supply p2 d_0;
  p1 ← csub d_0 d_1;
  diff ← share_part (cv_w cv) supply p1 d_0;
  fee ← csub burn diff;
  Some (burn, fee).

(** stable 56-67 SwapResult *)
Record SwapResult := mkSwapResult {
  sr_new_source : N;
  sr_new_destination : N;
  sr_swapped : N;
  sr_admin_fee : N;
  sr_fee : N;
}.

(** stable 358-392 swap_to, rated 406-448 *)
Definition swap_to (cv : Curve) (ix : nat) (amount_in : N) (iy : nat) (c_amounts : list N) (f : Fees)
  : option SwapResult :=
  rate_in ← vget (cv_rates cv) ix;
  rate_out ← vget (cv_rates cv) iy;
  in_rated ← mul_rate amount_in rate_in;
  rated ← rate_balances c_amounts (cv_rates cv);
  cin ← vget rated ix;
  x ← cadd W128 in_rated cin;
  y0 ← compute_y cv x rated ix iy;
  y ← fit W128 y0;
  cout ← vget rated iy;
  dy1 ← csub cout y;
  let dy := dy1 - 1 in
  trade ← trade_fee_of f dy;
  admin ← admin_trade_fee f trade;
  swapped ← csub dy trade;
  t ← csub cout swapped;
  new_destination ← csub t admin;
  new_source ← cadd W128 cin in_rated;
  r1 ← div_rate new_source rate_in;
  r2 ← div_rate new_destination rate_out;
  r3 ← div_rate swapped rate_out;
  r4 ← div_rate admin rate_out;
  r5 ← div_rate trade rate_out;
  Some (mkSwapResult r1 r2 r3 r4 r5).

Global Opaque PRECISION MIN_RAMP_DURATION.
