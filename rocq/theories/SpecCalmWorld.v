(** * Events of the exchange that are calm for one of its stable pools (SpecCalm.v) *)
From Verif Require Import Base BaseLemmas SimplePool SpecSimple StableMath StablePool SpecStable SpecExact SpecCalm Rates Account Pool Exchange SpecExchange SpecWorld SpecPaths.

(** The operations on a stable pool among those on pools. *)
Definition stable_op (o : pl_op) : option st_op :=
  match o with
  | OSwap ti x to mn f => Some (StSwap ti x to mn f)
  | OAddStable s am mn f => Some (StAdd s am mn f)
  | ORemove s sh mins => Some (StRemoveShares s sh mins)
  | ORemoveByTokens s am mx f => Some (StRemoveTokens s am mx f)
  | OTransfer s r x => Some (StTransfer s r x)
  | ORegister a => Some (StRegister a)
  | OUnregister a => Some (StUnregister a)
  | OSetFee fee => Some (StSetFee fee)
  | ORamp a t => Some (StRamp a t)
  | OStopRamp => Some StStopRamp
  | OSwapByOutput _ _ _ _ _ | OAdd _ _ => None
  end.
Definition op_rounding (Q : N) (o : pl_op) : N := match stable_op o with Some so => rounding Q so | None => 0 end.
(** Each operation of the list is calm, at amplification [A], and leaves [M] shares. *)
Fixpoint calm_ops (A B E Q M : N) (rs : RateState) (now : N) (p : StablePool) (os : list pl_op) : Prop :=
  match os with
  | [] => True
  | o :: r =>
      forall so p', stable_op o = Some so -> pl_exec rs now (PStable p) o = Some (PStable p') ->
        st_get_amp p now = A /\ M <= st_supply p' /\ calm_op A B E Q p (pl_env rs now p) so p' /\ calm_ops A B E Q M rs now p' r
  end.
(** Events, of any kind and by anyone.  Whatever operations on the pool [pid] an event stands for (C107) are calm; [j] bounds their rounding. *)
Inductive calm_world (A B E Q M pid : N) (w : World) : World -> N -> Prop :=
| calm_world_start : M <= supply_at (w_ex w) pid -> calm_world A B E Q M pid w w 0
| calm_world_step w1 k ev w2 j :
    calm_world A B E Q M pid w w1 k -> w_step w1 ev = Some w2 ->
    (forall p os, ex_pool (w_ex w1) pid = Some (PStable p) -> event_ops w1 ev pid os ->
       pl_run (ex_rates (w_ex w1)) (w_now w2) (PStable p) os = ex_pool (w_ex w2) pid ->
       calm_ops A B E Q M (ex_rates (w_ex w1)) (w_now w2) p os /\ lsum (op_rounding Q <$> os) <= j) ->
    calm_world A B E Q M pid w w2 (k + j).
