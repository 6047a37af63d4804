(** * What the time-weighted averages should be, said without the accumulator. *)
From Verif Require Import Base Twap.

(** One observation of a pool: when, the amounts one share stood for, the interval then in force. *)
Record Obs := mkObs { ob_time : N; ob_amounts : list N; ob_interval : N }.
Definition ob_amount (o : Obs) (j : nat) : N := default 0 (ob_amounts o !! j).

(** The state of a pool's record after a list of observations, newest first. *)
Inductive twap_history : list Obs -> TwapInfo -> Prop :=
  | th_new now am iv :
      now < W32 -> Forall (fun a => a < W128) am ->
      twap_history [mkObs now am iv] (twap_new now am)
  | th_update h i now am iv i' :
      twap_history h i -> now < W32 -> Forall (fun a => a < W128) am ->
      twap_update i now am iv = Some i' ->
      twap_history (mkObs now am iv :: h) i'.

(** Sum, over the observations made after [t0], of amount times the seconds since the previous one. *)
Fixpoint weighted (h : list Obs) (t0 : N) (j : nat) : N :=
  match h with
  | o :: ((p :: _) as r) =>
      (if t0 <? ob_time o then ob_amount o j * (ob_time o - ob_time p) else 0) + weighted r t0 j
  | _ => 0
  end.

(** [o] was made after [t0] and strictly later than the observation before it. *)
Inductive counted (t0 : N) (o : Obs) : list Obs -> Prop :=
  | counted_here p r : t0 < ob_time o -> ob_time p < ob_time o -> counted t0 o (o :: p :: r)
  | counted_later q r : counted t0 o r -> counted t0 o (q :: r).

(** Consecutive entries at least [d] apart. *)
Fixpoint spaced (d : N) (l : list N) : Prop :=
  match l with
  | x :: ((y :: _) as r) => x + d <= y /\ spaced d r
  | _ => True
  end.
