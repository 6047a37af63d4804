(** * Operations on a stable pool at one amplification, with even balances *)
From Verif Require Import Base SimplePool SpecSimple StableMath StablePool SpecStable SpecExact.

(** How much an operation may take from the invariant of the pool, over and above what leaves with the shares: rounding. [Q] bounds the invariant
    per share. *)
Definition rounding (Q : N) (o : st_op) : N :=
  match o with
  | StSwap _ _ _ _ _ | StAdd _ _ _ _ => 2
  | StRemoveTokens _ _ _ _ => 2 + Q
  | StRemoveShares _ _ _ => 1
  | _ => 0
  end.
(** A trade charges at least one unit ([10^-18] of a token) and leaves no balance but that of the incoming token - even if the fee on the whole balance
    were taken from it - below the [B]-th part of the invariant.  After it, and after liquidity was added or tokens were withdrawn, no balance is below
    the [E]-th part of the average.  The exchange keeps no more than the whole fee. *)
Definition calm_op (A B E Q : N) (p : StablePool) (e : PoolEnv) (o : st_op) (p' : StablePool) : Prop :=
  match o with
  | StSwap ti _ to _ f =>
      (exists D, st_D p (pe_now e) (map (fun _ => PRECISION) (st_tokens p)) (st_c p) = Some D /\
         forall t, t ∈ st_tokens p -> t <> ti -> D + B * (st_kept p t * st_fee p / FEE_DIVISOR) <= B * st_kept p' t) /\
      FEE_DIVISOR <= (st_kept p to - st_kept p' to) * st_fee p /\ admin_fee_bps f < FEE_DIVISOR /\ even_balances A E (st_c p')
  | StAdd _ _ _ f => admin_fee_bps f <= FEE_DIVISOR /\ even_balances A E (st_c p')
  | StRemoveTokens _ _ _ f => admin_fee_bps f <= FEE_DIVISOR /\ even_balances A E (st_c p') /\
      forall D, st_D p (pe_now e) (map (fun _ => PRECISION) (st_tokens p)) (st_c p) = Some D -> D <= Q * st_supply p
  | _ => True
  end.
(** Any operations by anyone, at amplification [A] throughout, during which there are never fewer than [M] shares; the last index adds up the
    rounding. *)
Inductive calm (A B E Q M : N) (now : N) (p : StablePool) : N -> StablePool -> N -> Prop :=
| calm_start : M <= st_supply p -> calm A B E Q M now p now p 0
| calm_step now1 p1 k e o p2 :
    calm A B E Q M now p now1 p1 k -> now1 <= pe_now e -> pe_now e < 2 ^ 64 -> st_get_amp p1 (pe_now e) = A ->
    st_exec p1 e o = Some p2 -> M <= st_supply p2 -> calm_op A B E Q p1 e o p2 ->
    calm A B E Q M now p (pe_now e) p2 (k + rounding Q o).
