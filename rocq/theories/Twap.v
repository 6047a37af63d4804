(** * Cumulative per-share amounts of a pool.
    /repo/ref-exchange/src/unit_lpt_cumulative_infos.rs.
    Simplification: the versioned wrapper VUnitShareCumulativeInfo has one version and is dropped. *)
From Verif Require Import Base.

(** [RECORD_COUNT_LIMIT], line 7 *)
Definition RECORD_COUNT_LIMIT : nat := 60.

(** lines 18-21 CumulativeRecord, 27-31 UnitShareCumulativeInfo; time in seconds (u32), amounts U256 *)
Record TwapRecord := mkTwapRecord { tr_time : N; tr_cum : list N }.
Record TwapInfo := mkTwapInfo { tw_last : N; tw_cum : list N; tw_records : list TwapRecord }.

(** lines 84-96 new *)
Definition twap_new (now : N) (amounts : list N) : TwapInfo :=
  mkTwapInfo now amounts [mkTwapRecord now amounts].

(** lines 103-107: cumulative + amount * elapsed; the product is checked, the sum wraps *)
Fixpoint twap_accumulate (elapsed : N) (cum amounts : list N) : option (list N) :=
  match cum, amounts with
  | [], _ => Some []
  | c :: cum', a :: amounts' =>
      x ← cmul W256 a elapsed;
      r ← twap_accumulate elapsed cum' amounts';
      Some ((c + x) mod W256 :: r)
  | _ :: _, [] => None
  end.

(** lines 98-122 update *)
Definition twap_update (i : TwapInfo) (now : N) (amounts : list N) (interval : N) : option TwapInfo :=
  last_record ← tw_records i !! pred (length (tw_records i));
  elapsed ← csub now (tw_last i);
  if 0 <? elapsed then
    cum ← twap_accumulate elapsed (tw_cum i) amounts;
    gap ← csub now (tr_time last_record);
    let records :=
      if interval <=? gap then
        let rs := tw_records i ++ [mkTwapRecord now cum] in
        if (RECORD_COUNT_LIMIT <? length rs)%nat then tail rs else rs
      else tw_records i in
    Some (mkTwapInfo now cum records)
  else Some i.

(** lines 124-133 twap_token_amounts: differences wrap, the denominator must be positive *)
Definition twap_token_amounts (i : TwapInfo) : option (list N) :=
  r0 ← tw_records i !! 0%nat;
  den ← csub (tw_last i) (tr_time r0);
  _ ← ensure (0 <? den);
  mapM_ (fun '(x, y) => fit W128 ((x + W256 - y) mod W256 / den)) (zip (tw_cum i) (tr_cum r0)).

(** lines 207-219 get_unit_share_twap_token_amounts: a copy is updated with the current per-share
    amounts ([unit]: None when the pool has too few shares); an average is reported only when there
    are [RECORD_COUNT_LIMIT] records *)
Definition twap_view (i : TwapInfo) (now : N) (unit : option (list N)) (interval : N) : option (option (list N)) :=
  match unit with
  | Some amounts =>
      i' ← twap_update i now amounts interval;
      if (length (tw_records i') =? RECORD_COUNT_LIMIT)%nat then l ← twap_token_amounts i'; Some (Some l) else Some None
  | None => Some None
  end.
