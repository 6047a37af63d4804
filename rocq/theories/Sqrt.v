(** * Model of utils.rs [integer_sqrt] *)
From Verif Require Import Base.

(** utils.rs:126-127, the loop body: [res = guess; guess = (value / guess + guess) >> 1].
    The state is the pair (guess, res).  Inside the loop neither the division by [guess] nor
    the U256 addition can panic (lemma [sqrt_body_safe] in SqrtProofs.v), so no check is modelled. *)
Definition sqrt_body (v : N) (st : N * N) : N * N :=
  let '(guess, res) := st in ((v / guess + guess) / 2, guess).

(** utils.rs:125 [while guess < res { body }], run for at most [2^k] iterations of the body.
    SqrtProofs.v proves that with the [k] used below the loop has always stopped by itself. *)
Fixpoint sqrt_loop (k : nat) (v : N) (st : N * N) : N * N :=
  if fst st <? snd st then
    match k with
    | O => sqrt_body v st
    | S k' => sqrt_loop k' v (sqrt_loop k' v st)
    end
  else st.

(** utils.rs:122-130 integer_sqrt; [value + U256::one()] may overflow and panic. *)
Definition integer_sqrt (v : N) : option N :=
  g0 ← cadd W256 v 1;
  Some (snd (sqrt_loop (N.size_nat v) v (g0 / 2, v))).
