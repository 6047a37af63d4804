(** * Several trades in one direction on a simple pool *)
From Verif Require Import Base SimplePool SpecSimple.

(** [sold p ti to p' a b]: trades of [ti] for [to], each with an exact input or an exact output, paid [a] and gave [b] in all. *)
Inductive sold (ti to : AccountId) : SimplePool -> SimplePool -> N -> N -> Prop :=
| sold_none p : sold ti to p p 0 0
| sold_swap p a mn f p1 b p2 a' b' :
    sp_swap p ti a to mn f false = Some (p1, b) -> sold ti to p1 p2 a' b' -> sold ti to p p2 (a + a') (b + b')
| sold_by_output p b mx f p1 a p2 a' b' :
    sp_swap_by_output p ti b to mx f false = Some (p1, a) -> sold ti to p1 p2 a' b' -> sold ti to p p2 (a + a') (b + b').

(** The same with exact outputs only, at least one. *)
Inductive bought (ti to : AccountId) : SimplePool -> SimplePool -> N -> N -> Prop :=
| bought_one p b mx f p1 a :
    sp_swap_by_output p ti b to mx f false = Some (p1, a) -> bought ti to p p1 a b
| bought_more p b mx f p1 a p2 a' b' :
    sp_swap_by_output p ti b to mx f false = Some (p1, a) -> bought ti to p1 p2 a' b' -> bought ti to p p2 (a + a') (b + b').
