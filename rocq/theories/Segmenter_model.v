(* Segmenter_model.v - src/visualization/data_segmenter.rs 27-84: DataSegmenter.  No proofs here.  usize is below 2^64; sums are checked. *)
From Coq Require Import List Bool.
From Verif Require Import Base.
Import ListNotations.

Record Seg : Set := mkSeg { sg_divisor : N; sg_base : N; sg_step : N; sg_accum : N; sg_count : N }.
Definition usize_max : N := 2 ^ 64.
Definition uadd (a b : N) : outcome N := if (a + b <? usize_max)%N then Ok (a + b)%N else Panic.
(* 42-57 new *)
Definition seg_new (dividend divisor : N) : outcome Seg :=
  if (0 <? divisor)%N then Ok (mkSeg divisor (dividend / divisor) (dividend mod divisor) 0 0) else Panic.
(* 63-83 next *)
Definition seg_next (s : Seg) : outcome (Seg * option N) :=
  if (sg_divisor s <=? sg_count s)%N then Ok (s, None) else
  let! count := uadd (sg_count s) 1 in
  let! acc := uadd (sg_accum s) (sg_step s) in
  if (sg_divisor s <=? acc)%N then
    let! v := uadd (sg_base s) 1 in
    Ok (mkSeg (sg_divisor s) (sg_base s) (sg_step s) (acc - sg_divisor s) count, Some v)
  else Ok (mkSeg (sg_divisor s) (sg_base s) (sg_step s) acc count, Some (sg_base s)).
(* collect, with at most fuel calls of next: the values, and whether the end was reached *)
Fixpoint seg_collect (fuel : nat) (s : Seg) : outcome (list N * bool) :=
  match fuel with
  | O => Ok ([], false)
  | S f => let! (s, v) := seg_next s in
           match v with
           | None => Ok ([], true)
           | Some v => let! (l, e) := seg_collect f s in Ok (v :: l, e)
           end
  end.
