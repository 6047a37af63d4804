(** * What one pool share stands for, and which events look at it *)
From Verif Require Import Base SimplePool StableMath StablePool SpecStable Account Pool Exchange SpecWorld.

(** The digits shares are shown with, and one whole share. *)
Definition share_digits (p : Pool) : N := match p with PSimple _ => 24 | PStable q => match st_kind q with KStable => 18 | _ => 24 end end.
Definition one_share (p : Pool) : N := 10 ^ share_digits p.
(** An amount kept with [k] decimals, in units of a token with [d] decimals. *)
Definition in_units (k d x : N) : N := if d <=? k then x / 10 ^ (k - d) else x * 10 ^ (d - k).
(** The amounts of the pool's tokens for one share, rounded down. *)
Definition stands_for (p : Pool) : list N :=
  match p with
  | PSimple q => (fun r => r * one_share p / sp_supply q) <$> sp_amounts q
  | PStable q => zip_with (fun d c => in_units (kept_decimals (st_kind q)) d (c * one_share p / st_supply q)) (st_decimals q) (st_c q)
  end.
(** Calls that redeem shares of a pool without an observation. *)
Definition unobserved (x : Call) : bool :=
  match x with CLiquidation _ _ _ _ _ | CRemoveFeeLiquidity _ _ _ => true | _ => false end.
(** Calls that start and end the record of a pool. *)
Definition switches (x : Call) : bool := match x with CRegisterTwap _ | CUnregisterTwap _ => true | _ => false end.
Definition switching (ev : Event) : bool := match ev with EvCall _ x => switches x | _ => false end.
