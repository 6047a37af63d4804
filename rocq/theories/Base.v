(** * Base: panicking computations, checked machine arithmetic, finite maps of balances.

    Conventions of the whole development:
    - a Rust function that may panic (assert!, expect, unwrap, env::panic, arithmetic
      overflow -- /repo/Cargo.toml:17-27 sets [overflow-checks = true]) is a Gallina
      function into [option]; [None] is the panic.  On NEAR a panic reverts every state
      change of the receipt, so the state before the call is the state after a [None].
    - u8/u32/u64/u128 and the uint-crate types U256/U384 are modelled by [N] together with
      explicit range checks: every operation that can leave the range returns [None].
    - HashMap / LookupMap / UnorderedMap are std++ [gmap]s; account ids are strings. *)
From stdpp Require Export prelude option list gmap strings countable.
From Coq Require Export NArith ZArith Lia.
From Coq Require Import ZifyBool ZifyNat ZifyN.
Global Open Scope N_scope.
Global Unset Program Cases.

(** AccountId (near_sdk): a string. *)
Notation AccountId := string (only parsing).
(** Balance (near_sdk): u128. *)
Notation Balance := N (only parsing).

(** ** Assertions *)
(** assert!(b): panics unless [b]. *)
Definition ensure (b : bool) : option unit := if b then Some tt else None.

(** ** Checked arithmetic *)
Definition W32 : N := 2 ^ 32.
Definition W64 : N := 2 ^ 64.
Definition W128 : N := 2 ^ 128.
Definition W256 : N := 2 ^ 256.
Definition W384 : N := 2 ^ 384.

(** a value that must be representable below the bound [w]. *)
Definition fit (w x : N) : option N := if x <? w then Some x else None.
Definition cadd (w a b : N) : option N := fit w (a + b).
Definition cmul (w a b : N) : option N := fit w (a * b).
Definition csub (a b : N) : option N := if b <=? a then Some (a - b) else None.
Definition cdiv (a b : N) : option N := if b =? 0 then None else Some (a / b).
(** checked_pow / pow with overflow checks *)
Definition cpow (w a b : N) : option N := fit w (a ^ b).

(** utils.rs:132-134 [u128_ratio(a, num, denom) = (U256(a) * U256(num) / U256(denom)).as_u128()] *)
Definition u128_ratio (a num denom : N) : option N :=
  p ← cmul W256 a num; q ← cdiv p denom; fit W128 q.

(** [FEE_DIVISOR], utils.rs:39 *)
Definition FEE_DIVISOR : N := 10000.
(** [MAX_ADMIN_FEE_BPS], utils.rs:40 *)
Definition MAX_ADMIN_FEE_BPS : N := 8000.
(** [INIT_SHARES_SUPPLY], utils.rs:43 *)
Definition INIT_SHARES_SUPPLY : N := 10 ^ 24.

(** ** Vec<Balance> access with bounds check *)
Definition vget {A} (l : list A) (i : nat) : option A := l !! i.
Definition vset {A} (l : list A) (i : nat) (x : A) : option (list A) :=
  if decide (i < length l)%nat then Some (<[i := x]> l) else None.

(** position(|id| id == token_id) *)
Fixpoint position_from (i : nat) (t : AccountId) (l : list AccountId) : option nat :=
  match l with
  | [] => None
  | x :: r => if String.eqb x t then Some i else position_from (S i) t r
  end.
Definition position (t : AccountId) (l : list AccountId) : option nat := position_from 0 t l.

(** sequential monadic map with index, as a [for i in 0..n] loop that fills a vector *)
Fixpoint mapM_ {A B} (f : A -> option B) (l : list A) : option (list B) :=
  match l with
  | [] => Some []
  | x :: r => y ← f x; ys ← mapM_ f r; Some (y :: ys)
  end.

(** checked sum over u128: [fold(0, |sum, i| sum + i)] *)
Fixpoint csum (w acc : N) (l : list N) : option N :=
  match l with
  | [] => Some acc
  | x :: r => a ← cadd w acc x; csum w a r
  end.

(** ** AdminFees, admin_fee.rs:8-17 *)
Record AdminFees := mkAdminFees {
  admin_fee_bps : N;
  exchange_id : AccountId;
  referral_info : option (AccountId * N);
}.

(** calc_referral_share, admin_fee.rs:35-42 *)
Definition calc_referral_share (f : AdminFees) (admin_share : N) : option (N * AccountId) :=
  match referral_info f with
  | Some (rid, rfee) => s ← u128_ratio admin_share rfee FEE_DIVISOR; Some (s, rid)
  | None => Some (0, exchange_id f)
  end.

(** ** Shares map: LookupMap<AccountId, Balance> *)
Definition shares_get (m : gmap AccountId N) (a : AccountId) : N := default 0 (m !! a).

(** add_to_collection, utils.rs:110-113: insert(account, get(account).unwrap_or(0) + amount) *)
Definition add_to_collection (m : gmap AccountId N) (a : AccountId) (amt : N)
  : option (gmap AccountId N) :=
  v ← cadd W128 (shares_get m a) amt; Some (<[a := v]> m).

(** Keep the big constants folded for unification (the kernel and [vm_compute] still see them). *)
Global Opaque W32 W64 W128 W256 W384 INIT_SHARES_SUPPLY.
