(** * Model of ref-exchange/src/simple_pool.rs *)
From Verif Require Import Base Sqrt.

(** simple_pool.rs:20-37 SimplePool.  The fields [volumes] (never written any more, lines 426-430),
    [exchange_fee] and [referral_fee] ("Obsolete") are omitted. *)
Record SimplePool := mkSimplePool {
  sp_tokens : list AccountId;       (* token_account_ids *)
  sp_amounts : list Balance;        (* amounts *)
  sp_fee : N;                       (* total_fee : u32 *)
  sp_shares : gmap AccountId Balance;   (* shares *)
  sp_supply : Balance;              (* shares_total_supply *)
}.

Definition sp_set_amounts (p : SimplePool) x :=
  mkSimplePool (sp_tokens p) x (sp_fee p) (sp_shares p) (sp_supply p).
Definition sp_set_fee (p : SimplePool) x :=
  mkSimplePool (sp_tokens p) (sp_amounts p) x (sp_shares p) (sp_supply p).
Definition sp_set_shares (p : SimplePool) x :=
  mkSimplePool (sp_tokens p) (sp_amounts p) (sp_fee p) x (sp_supply p).
Definition sp_set_supply (p : SimplePool) x :=
  mkSimplePool (sp_tokens p) (sp_amounts p) (sp_fee p) (sp_shares p) x.

(** simple_pool.rs:14 *)
Definition NUM_TOKENS : nat := 2.

(** simple_pool.rs:41-65 new *)
Definition sp_new (tokens : list AccountId) (total_fee : N) : option SimplePool :=
  _ ← ensure (total_fee <? FEE_DIVISOR);
  _ ← ensure (length tokens =? NUM_TOKENS)%nat;
  Some (mkSimplePool tokens (repeat 0 NUM_TOKENS) total_fee ∅ 0).

(** simple_pool.rs:67-69 modify_total_fee *)
Definition sp_modify_total_fee (p : SimplePool) (fee : N) : SimplePool := sp_set_fee p fee.

(** simple_pool.rs:72-74 share_has_registered *)
Definition sp_share_has_registered (p : SimplePool) (a : AccountId) : bool :=
  bool_decide (is_Some (sp_shares p !! a)).

(** simple_pool.rs:78-83 share_register *)
Definition sp_share_register (p : SimplePool) (a : AccountId) : option SimplePool :=
  _ ← ensure (negb (sp_share_has_registered p a));
  Some (sp_set_shares p (<[a := 0]> (sp_shares p))).

(** simple_pool.rs:87-90 share_unregister *)
Definition sp_share_unregister (p : SimplePool) (a : AccountId) : option SimplePool :=
  s ← sp_shares p !! a;
  _ ← ensure (s =? 0);
  Some (sp_set_shares p (delete a (sp_shares p))).

(** simple_pool.rs:93-105 share_transfer *)
Definition sp_share_transfer (p : SimplePool) (sender receiver : AccountId) (amount : Balance)
  : option SimplePool :=
  b ← sp_shares p !! sender;
  nb ← csub b amount;
  let m1 := <[sender := nb]> (sp_shares p) in
  bo ← m1 !! receiver;
  nbo ← cadd W128 bo amount;
  Some (sp_set_shares p (<[receiver := nbo]> m1)).

(** simple_pool.rs:108-110 share_balance_of *)
Definition sp_share_balance_of (p : SimplePool) (a : AccountId) : Balance :=
  shares_get (sp_shares p) a.

(** simple_pool.rs:175-183 mint_shares *)
Definition sp_mint_shares (p : SimplePool) (a : AccountId) (shares : Balance) (is_view : bool)
  : option SimplePool :=
  if shares =? 0 then Some p else
  s ← cadd W128 (sp_supply p) shares;
  let p1 := sp_set_supply p s in
  if is_view then Some p1 else
  m ← add_to_collection (sp_shares p1) a shares;
  Some (sp_set_shares p1 m).

(** simple_pool.rs:131-138: the loop that computes [fair_supply]; panics on a zero offered amount
    and (U256 division) on a zero reserve.  The three vectors have length NUM_TOKENS; another
    length is an out-of-bounds panic, modelled by the last case. *)
Fixpoint sp_fair_supply (supply acc : N) (amounts reserves : list N) : option N :=
  match amounts, reserves with
  | [], [] => Some acc
  | a :: amounts', r :: reserves' =>
      _ ← ensure (0 <? a);
      x ← cmul W256 (a - 1) supply;
      q ← cdiv x r;
      sp_fair_supply supply (N.min acc q) amounts' reserves'
  | _, _ => None
  end.

(** simple_pool.rs:140-142: the amount taken for one token,
    [(U256(reserve) * fair_supply / U256(supply)).as_u128() + 1] *)
Definition sp_taken (supply fair reserve : N) : option N :=
  x ← cmul W256 reserve fair;
  q ← cdiv x supply;
  q' ← fit W128 q;
  cadd W128 q' 1.

(** [self.amounts[i] += amount] for all i (u128). *)
Fixpoint vadd (xs ys : list N) : option (list N) :=
  match xs, ys with
  | [], [] => Some []
  | x :: xs', y :: ys' => z ← cadd W128 x y; zs ← vadd xs' ys'; Some (z :: zs)
  | _, _ => None
  end.

(** simple_pool.rs:124-172 add_liquidity.  Returns the new pool, the amounts really taken
    (the [&mut amounts]) and the minted shares. *)
Definition sp_add_liquidity (p : SimplePool) (sender : AccountId) (amounts : list Balance)
    (is_view : bool) : option (SimplePool * list Balance * Balance) :=
  _ ← ensure (length amounts =? NUM_TOKENS)%nat;
  '(reserves', taken, shares) ←
    (if 0 <? sp_supply p then
       fair ← sp_fair_supply (sp_supply p) (W256 - 1) amounts (sp_amounts p);
       taken ← mapM_ (sp_taken (sp_supply p) fair) (sp_amounts p);
       reserves' ← vadd (sp_amounts p) taken;
       shares ← fit W128 fair;
       Some (reserves', taken, shares)
     else
       _ ← ensure (forallb (fun a => 0 <? a) amounts);
       reserves' ← vadd (sp_amounts p) amounts;
       Some (reserves', amounts, INIT_SHARES_SUPPLY));
  p' ← sp_mint_shares (sp_set_amounts p reserves') sender shares is_view;
  _ ← ensure (0 <? shares);
  Some (p', taken, shares).

(** simple_pool.rs:207-214: one loop iteration of remove_liquidity: (amount paid, reserve left) *)
Definition sp_redeem (supply shares reserve min_amount : N) : option (N * N) :=
  x ← cmul W256 reserve shares;
  q ← cdiv x supply;
  amount ← fit W128 q;
  _ ← ensure (min_amount <=? amount);
  left ← csub reserve amount;
  Some (amount, left).

Fixpoint sp_redeem_all (supply shares : N) (reserves mins : list N) : option (list N * list N) :=
  match reserves, mins with
  | [], [] => Some ([], [])
  | r :: reserves', m :: mins' =>
      '(a, l) ← sp_redeem supply shares r m;
      '(als, ls) ← sp_redeem_all supply shares reserves' mins';
      Some (a :: als, l :: ls)
  | _, _ => None
  end.

(** simple_pool.rs:186-234 remove_liquidity *)
Definition sp_remove_liquidity (p : SimplePool) (sender : AccountId) (shares : Balance)
    (min_amounts : list Balance) (is_view : bool) : option (SimplePool * list Balance) :=
  _ ← ensure (length min_amounts =? NUM_TOKENS)%nat;
  m ← (if is_view then Some (sp_shares p) else
         prev ← sp_shares p !! sender;
         _ ← ensure (shares <=? prev);
         Some (<[sender := prev - shares]> (sp_shares p)));
  '(amounts, reserves') ← sp_redeem_all (sp_supply p) shares (sp_amounts p) min_amounts;
  s ← csub (sp_supply p) shares;
  Some (sp_set_supply (sp_set_shares (sp_set_amounts p reserves') m) s, amounts).

(** simple_pool.rs:237-242 token_index *)
Definition sp_token_index (p : SimplePool) (t : AccountId) : option nat := position t (sp_tokens p).

(** simple_pool.rs:246-264 internal_get_return *)
Definition sp_internal_get_return (p : SimplePool) (token_in : nat) (amount_in : Balance)
    (token_out : nat) : option Balance :=
  in_balance ← vget (sp_amounts p) token_in;
  out_balance ← vget (sp_amounts p) token_out;
  _ ← ensure ((0 <? in_balance) && (0 <? out_balance)
              && negb (token_in =? token_out)%nat && (0 <? amount_in));
  f ← csub FEE_DIVISOR (sp_fee p);
  awf ← cmul W256 amount_in f;
  num ← cmul W256 awf out_balance;
  d1 ← cmul W256 FEE_DIVISOR in_balance;
  den ← cadd W256 d1 awf;
  q ← cdiv num den;
  fit W128 q.

(** simple_pool.rs:268-286 internal_get_return_by_output *)
Definition sp_internal_get_return_by_output (p : SimplePool) (token_in : nat) (amount_out : Balance)
    (token_out : nat) : option Balance :=
  in_balance ← vget (sp_amounts p) token_in;
  out_balance ← vget (sp_amounts p) token_out;
  _ ← ensure ((0 <? in_balance) && (0 <? out_balance)
              && negb (token_in =? token_out)%nat && (0 <? amount_out));
  n1 ← cmul W256 in_balance amount_out;
  num ← cmul W256 n1 FEE_DIVISOR;
  o1 ← csub out_balance amount_out;
  f ← csub FEE_DIVISOR (sp_fee p);
  den ← cmul W256 o1 f;
  q ← cdiv num den;
  r ← cadd W256 q 1;
  fit W128 r.

(** simple_pool.rs:395-403: the referral part of the admin shares *)
Definition sp_referral_share (p : SimplePool) (f : AdminFees) (admin_shares : N) : option N :=
  match referral_info f with
  | Some (rid, rfee) =>
      if sp_share_has_registered p rid then u128_ratio admin_shares rfee FEE_DIVISOR else Some 0
  | None => Some 0
  end.

(** simple_pool.rs:357-432 update_pool_and_distribute_fee *)
Definition sp_update_pool_and_distribute_fee (p : SimplePool) (in_idx : nat) (amount_in : Balance)
    (out_idx : nat) (amount_out : Balance) (f : AdminFees) (is_view : bool) : option SimplePool :=
  in0 ← vget (sp_amounts p) in_idx;
  out0 ← vget (sp_amounts p) out_idx;
  k0 ← cmul W256 in0 out0;
  prev_invariant ← integer_sqrt k0;
  in1 ← cadd W128 in0 amount_in;
  amounts1 ← vset (sp_amounts p) in_idx in1;
  o ← vget amounts1 out_idx;
  out1 ← csub o amount_out;
  amounts2 ← vset amounts1 out_idx out1;
  let p1 := sp_set_amounts p amounts2 in
  in2 ← vget amounts2 in_idx;
  out2 ← vget amounts2 out_idx;
  k1 ← cmul W256 in2 out2;
  new_invariant ← integer_sqrt k1;
  _ ← ensure (prev_invariant <=? new_invariant);
  numerator ← cmul W256 (new_invariant - prev_invariant) (sp_supply p1);
  if (0 <? admin_fee_bps f) && (0 <? numerator) then
    d ← cmul W256 prev_invariant FEE_DIVISOR;
    denominator ← cdiv d (admin_fee_bps f);
    q ← cdiv numerator denominator;
    admin_shares ← fit W128 q;
    referral_share ← sp_referral_share p1 f admin_shares;
    p2 ← (if 0 <? referral_share then
            match referral_info f with
            | Some (rid, _) => sp_mint_shares p1 rid referral_share is_view
            | None => None
            end
          else Some p1);
    rest ← csub admin_shares referral_share;
    sp_mint_shares p2 (exchange_id f) rest is_view
  else Some p1.

(** simple_pool.rs:300-325 swap *)
Definition sp_swap (p : SimplePool) (token_in : AccountId) (amount_in : Balance)
    (token_out : AccountId) (min_amount_out : Balance) (f : AdminFees) (is_view : bool)
  : option (SimplePool * Balance) :=
  _ ← ensure (negb (String.eqb token_in token_out));
  in_idx ← sp_token_index p token_in;
  out_idx ← sp_token_index p token_out;
  amount_out ← sp_internal_get_return p in_idx amount_in out_idx;
  _ ← ensure (min_amount_out <=? amount_out);
  p' ← sp_update_pool_and_distribute_fee p in_idx amount_in out_idx amount_out f is_view;
  Some (p', amount_out).

(** simple_pool.rs:330-355 swap_by_output *)
Definition sp_swap_by_output (p : SimplePool) (token_in : AccountId) (amount_out : Balance)
    (token_out : AccountId) (max_amount_in : option Balance) (f : AdminFees) (is_view : bool)
  : option (SimplePool * Balance) :=
  _ ← ensure (negb (String.eqb token_in token_out));
  in_idx ← sp_token_index p token_in;
  out_idx ← sp_token_index p token_out;
  amount_in ← sp_internal_get_return_by_output p in_idx amount_out out_idx;
  _ ← ensure (match max_amount_in with None => true | Some m => amount_in <=? m end);
  p' ← sp_update_pool_and_distribute_fee p in_idx amount_in out_idx amount_out f is_view;
  Some (p', amount_in).
