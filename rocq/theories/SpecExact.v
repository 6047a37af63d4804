(** * The exact StableSwap invariant
    The contract computes the invariant [D] of a stable pool by an iteration with rounding divisions.
    This file states, in exact integer arithmetic and without any part of the model, which numbers
    are at most the exact invariant. *)
From Verif Require Import Base SimplePool StableMath StablePool SpecStable.

Definition total (xs : list N) : N := foldr N.add 0 xs.
Definition product (xs : list N) : N := foldr N.mul 1 xs.

(** The exact invariant of balances [xs] at amplification [A] is the positive real [D] with
    [A n^n S + D = A n^n D + D^(n+1) / (n^n P)], with [S] the sum and [P] the product of the balances.
    The right side minus the left side grows with [D]; an integer [d] is at most the exact invariant when
    the right side does not exceed the left one (multiplied by [n^n P]). *)
Definition at_most_D (A : N) (xs : list N) (d : N) : Prop :=
  let n := N.of_nat (length xs) in
  let P := n ^ n * product xs in
  d ^ (n + 1) + A * n ^ n * d * P <= A * n ^ n * total xs * P + d * P.

(** The exact invariant is at most the integer [d]. *)
Definition at_least_D (A : N) (xs : list N) (d : N) : Prop :=
  let n := N.of_nat (length xs) in
  let P := n ^ n * product xs in
  A * n ^ n * total xs * P + d * P <= d ^ (n + 1) + A * n ^ n * d * P.

(** [1 + B + ... + B^k] *)
Fixpoint geometric (B : N) (k : nat) : N := match k with O => 1 | S k' => 1 + B * geometric B k' end.

(** Balances none of which is below the [B]-th part of the average, and an amplification that is large for [B]. *)
Definition even_balances (A B : N) (xs : list N) : Prop :=
  let n := N.of_nat (length xs) in
  Forall (fun c => total xs <= B * (n * c)) xs /\ 2 * (n + 1) * B ^ n < A * n ^ n.

(** Any number of trades in a stable pool by anyone, at amplification [A] throughout, each of which
    charges a fee of at least one unit of the kept decimals ([10^-18] of a token) and leaves no balance other
    than that of the incoming token below the [B]-th part of the invariant. *)
Inductive charged_trades (A B : N) : N -> StablePool -> N -> StablePool -> Prop :=
| ct_none now p : charged_trades A B now p now p
| ct_trade now p now1 p1 e ti a to mn f p2 out D :
    charged_trades A B now p now1 p1 -> now1 <= pe_now e -> pe_now e < 2 ^ 64 ->
    st_get_amp p1 (pe_now e) = A ->
    st_swap p1 e ti a to mn f false = Some (p2, out) ->
    st_D p1 (pe_now e) (map (fun _ => PRECISION) (st_tokens p1)) (st_c p1) = Some D ->
    FEE_DIVISOR <= (st_kept p1 to - st_kept p2 to) * st_fee p1 ->
    (forall t, t ∈ st_tokens p1 -> t <> ti -> D <= B * st_kept p2 t) ->
    charged_trades A B now p (pe_now e) p2.

(** The fee of an unbalanced deposit or withdrawal: the fee rate [fee n / (4 (n - 1))] (ten-thousandths) on
    the difference between the new balance and the one the old balance would have grown or shrunk to. *)
Definition imbalance_fee (n fee d0 d1 old new : N) : N :=
  let ideal := d1 * old / d0 in
  let difference := if new <? ideal then ideal - new else new - ideal in
  difference * (fee * n / (4 * (n - 1))) / FEE_DIVISOR.
Definition charged_balances (fee d0 d1 : N) (old new : list N) : list N :=
  zip_with (fun o b => b - imbalance_fee (N.of_nat (length old)) fee d0 d1 o b) old new.
