(* Mfm_model.v - src/bitstream_codec/mfm.rs: the MFM track codec. *)
From Verif Require Import Base BitRing_model RangeCheck_model.

(* bitstream_codec/mod.rs 42-46, 62-65 *)
Record MarkerEncoding : Set := mkMarker { me_bits : N; me_mask : N; me_len : nat }.
Definition mask64 : N := 0xFFFFFFFFFFFFFFFF%N.
Definition marker64 (bits : N) : MarkerEncoding := mkMarker bits mask64 64.   (* ..Default::default() *)
Inductive EncodingVariant : Set := EData | EAddressMark.

(* mfm.rs 44 *)
Definition MFM_BYTE_LEN : nat := 16.

(* mfm.rs 58-69.  track_padding (diagnostic, never read by the modelled code) is omitted. *)
Record Mfm : Set := mkMfm {
  m_bits : BitRing; m_clock : BitRing; m_error : BitRing; m_weak_enabled : bool; m_weak : BitRing;
  m_phase : nat; m_cursor : nat; m_ranges : events; m_ranges_f : events }.
Definition with_bits (m : Mfm) (r : BitRing) : Mfm :=
  mkMfm r (m_clock m) (m_error m) (m_weak_enabled m) (m_weak m) (m_phase m) (m_cursor m)
        (m_ranges m) (m_ranges_f m).
Definition with_clock (m : Mfm) (r : BitRing) : Mfm :=
  mkMfm (m_bits m) r (m_error m) (m_weak_enabled m) (m_weak m) (m_phase m) (m_cursor m)
        (m_ranges m) (m_ranges_f m).
Definition with_weak (m : Mfm) (r : BitRing) : Mfm :=
  mkMfm (m_bits m) (m_clock m) (m_error m) (m_weak_enabled m) r (m_phase m) (m_cursor m)
        (m_ranges m) (m_ranges_f m).
Definition with_cursor (m : Mfm) (c : nat) : Mfm :=
  mkMfm (m_bits m) (m_clock m) (m_error m) (m_weak_enabled m) (m_weak m) (m_phase m) c
        (m_ranges m) (m_ranges_f m).
Definition mfm_data (m : Mfm) : list bool := r_bits (m_bits m).      (* mfm.rs 116-118 *)
Definition mfm_len (m : Mfm) : nat := ring_len (m_bits m).          (* mfm.rs 104-106 *)

(* mfm.rs 85-96; i counts from the start index.  u32 register. *)
Fixpoint find_sync_loop (l : list bool) (i : nat) (reg : N) : option nat :=
  match l with
  | [] => None
  | b :: t =>
      let reg := as_u32 (2 * reg + b2N b) in
      if (32 <=? i)%nat && (reg =? 0xAAAAAAAA)%N then Some (i - 32) else find_sync_loop t (S i) reg
  end.
Definition find_sync (track : list bool) (start_idx : nat) : option nat :=
  find_sync_loop (skipn start_idx track) 0 0.
(* mfm.rs 71-83 *)
Definition get_mfm_sync_offset (track : list bool) : option bool :=
  match find_sync track 0 with
  | Some off => if off mod 2 =? 0 then Some false else Some true
  | None => None
  end.

(* mfm.rs 691-714 *)
Fixpoint error_map_loop (l : list bool) (zero_ct : nat) (bad : bool) : list bool :=
  match l with
  | [] => []
  | b :: t =>
      let '(z, bad) := if negb b then (S zero_ct, if 3 <? S zero_ct then true else bad)
                       else (0, if zero_ct <? 4 then false else bad) in
      bad :: error_map_loop t z bad
  end.
Definition create_error_map (bits : list bool) : list bool := error_map_loop bits 0 false.

(* mfm.rs 491-534 *)
Definition mfm_new (bits : list bool) (bit_ct : option nat) (weak : option (list bool)) : outcome Mfm :=
  let bits := match bit_ct with Some n => firstn n bits | None => bits end in
  let sync := match get_mfm_sync_offset bits with Some s => s | None => false end in
  let clock := repeat sync (length bits) in
  let weak := match weak with Some w => w | None => repeat false (length bits) end in
  if length weak <? length bits then Panic
  else Ok (mkMfm (ring_from bits) (ring_set_wrap_value (ring_from clock) (Some false))
                 (ring_from (create_error_map bits)) true (ring_from weak)
                 (if sync then 1 else 0) (if sync then 1 else 0) [] []).

(* mfm.rs 112-114 *)
Definition mfm_replace (m : Mfm) (bits : list bool) : Mfm := with_bits m (ring_from bits).
(* mfm.rs 128-133 *)
Definition mfm_set_clock_map (m : Mfm) (clock : list bool) : outcome Mfm :=
  if length clock =? mfm_len m then Ok (with_clock m (ring_from clock)) else Panic.
(* mfm.rs 159-161 (trait method, unchecked) and 536-546 (checked) *)
Definition mfm_set_weak_mask (m : Mfm) (w : list bool) : Mfm := with_weak m (ring_from w).
Definition mfm_set_weak_mask_checked (m : Mfm) (w : list bool) : outcome Mfm :=
  if length w =? mfm_len m then Ok (mfm_set_weak_mask m w) else Err IoError.
(* mfm.rs 143-145 *)
Definition mfm_enable_weak (m : Mfm) (b : bool) : Mfm :=
  mkMfm (m_bits m) (m_clock m) (m_error m) b (m_weak m) (m_phase m) (m_cursor m)
        (m_ranges m) (m_ranges_f m).

(* mfm.rs 215-221 *)
Definition read_raw_u8 (m : Mfm) (index : nat) : outcome N :=
  ofold (fun byte bi => let! b := ring_get (m_bits m) bi in Ok (as_u8 (2 * byte + b2N b)))
        (seq index 8) 0%N.
(* mfm.rs 223-230; n = buf.len() *)
Definition read_raw_buf (m : Mfm) (n offset : nat) : outcome (list N) :=
  omap (@rev N)
    (ofold (fun acc k => let! b := read_raw_u8 m (offset + k * 8) in Ok (b :: acc)) (seq 0 n) []).
(* mfm.rs 232-236 *)
Definition write_raw_u8 (m : Mfm) (index : nat) (byte : N) : outcome Mfm :=
  let! r := ofold (fun r '(i, bit) => ring_set r (index + i) bit)
                  (combine (seq 0 8) (byte_bits byte)) (m_bits m) in
  Ok (with_bits m r).
(* mfm.rs 356-367: returns the codec (the byte count returned is buf.len()) *)
Definition write_raw_buf (m : Mfm) (buf : list N) (offset : nat) : outcome Mfm :=
  let! (r, _) := ofold (fun '(r, off) bit => let! r' := ring_set r off bit in Ok (r', S off))
                       (flat_map byte_bits buf) (m_bits m, offset) in
  Ok (with_bits m r).

(* mfm.rs 247-249, 344-346, 724-727, 758-761: step to the next clock bit when on a data bit *)
Definition nudge (m : Mfm) (c : nat) : outcome nat :=
  let! a := ring_get (m_clock m) c in
  if a then Ok c
  else let! b := ring_get (m_clock m) (c + 1) in Ok (if b then c + 1 else c).

(* mfm.rs 255-261: one bit; `rnd c` is the value rand::random() produces for this read. *)
Definition data_bit (rnd : nat -> bool) (m : Mfm) (c : nat) : outcome bool :=
  if m_weak_enabled m && negb (ring_is_empty (m_weak m)) then
    let! w := ring_get (m_weak m) c in
    if w then Ok (rnd c) else ring_get (m_bits m) c
  else ring_get (m_bits m) c.

(* mfm.rs 240-267 *)
Definition read_decoded_u8 (rnd : nat -> bool) (m : Mfm) (index : nat) : outcome N :=
  let! c := nudge m index in
  let! (byte, _) :=
    ofold (fun '(byte, c) _ => let! b := data_bit rnd m c in Ok (as_u8 (2 * byte + b2N b), c + 2))
          (seq 0 8) (0%N, c + 1) in
  Ok byte.
(* mfm.rs 321-328 *)
Definition read_decoded_buf (rnd : nat -> bool) (m : Mfm) (n offset : nat) : outcome (list N) :=
  omap (@rev N)
    (ofold (fun acc k => let! b := read_decoded_u8 rnd m (offset + k * MFM_BYTE_LEN) in Ok (b :: acc))
           (seq 0 n) []).
(* mfm.rs 297-319 *)
Definition read_decoded_u32_be (rnd : nat -> bool) (m : Mfm) (index : nat) : outcome N :=
  let! a := ring_get (m_clock m) index in
  let c := (if a then index else index + 1) + 1 in
  let! (dw, _) :=
    ofold (fun '(dw, c) _ => let! b := data_bit rnd m c in Ok (as_u32 (2 * dw + b2N b), c + 2))
          (seq 0 32) (0%N, c) in
  Ok dw.
(* mfm.rs 269-295 *)
Definition read_decoded_u32_le (rnd : nat -> bool) (m : Mfm) (index : nat) : outcome N :=
  let! a := ring_get (m_clock m) index in
  let c := (if a then index else index + 1) + 1 in
  let! (dw, _) :=
    ofold (fun '(dw, c) b =>
             let! (byte, c) :=
               ofold (fun '(byte, c) _ => let! x := data_bit rnd m c in Ok (as_u32 (2 * byte + b2N x), c + 2))
                     (seq 0 8) (0%N, c) in
             Ok (N.lor dw (as_u32 (N.shiftl byte (N.of_nat b * 8))), c))
          (seq 0 4) (0%N, c) in
  Ok dw.

(* mfm.rs 369-415.  The BitVec under construction is held reversed: push = cons, the last bit is the
   head, set(len-2) replaces the second element. *)
Definition enc_push (prev_bit : bool) (acc : list bool) (bit : bool) : list bool :=
  if bit then true :: false :: acc
  else
    let previous := match acc with [] => prev_bit | b :: _ => b end in
    false :: negb previous :: acc.
Definition enc_step (prev_bit : bool) (v : EncodingVariant) (st : list bool * nat) (bit : bool) : list bool * nat :=
  let acc := enc_push prev_bit (fst st) bit in
  let ct := S (snd st) in
  match v with
  | EData => (acc, ct)
  | EAddressMark => (if ct =? 4 then upd acc 1 false else acc, ct)
  end.
Definition mfm_encode (data : list N) (prev_bit : bool) (v : EncodingVariant) : list bool :=
  rev (fold_left (fun acc byte => fst (fold_left (enc_step prev_bit v) (byte_bits byte) (acc, 0))) data []).

(* mfm.rs 330-354: returns the new codec and (bits_written + 7) / 8 *)
Definition write_encoded_buf (m : Mfm) (buf : list N) (offset : nat) : outcome (Mfm * nat) :=
  let enc := mfm_encode buf false EData in
  let! offset := nudge m offset in
  let! (r, n) := ofold (fun '(r, i) bit => let! r' := ring_set r (offset + i) bit in Ok (r', S i))
                       enc (m_bits m, 0) in
  Ok (with_bits m r, (n + 7) / 8).

(* mfm.rs 417-442.  64-bit register; `bi - marker.len` is a checked subtraction. *)
Fixpoint find_marker_loop (r : BitRing) (mk : MarkerEncoding) (fuel bi : nat) (reg : N) (ct : nat)
  : outcome (option (nat * N)) :=
  match fuel with
  | O => Ok None
  | S f =>
      let! b := ring_get r bi in
      let reg := ((2 * reg + b2N b) mod 2 ^ 64)%N in
      let ct := S ct in
      if (64 <=? ct) && (N.land reg (me_mask mk) =? me_bits mk)%N then
        if bi <? me_len mk then Panic else Ok (Some (bi - me_len mk + 1, N.land reg 0xFFFF))
      else find_marker_loop r mk f (S bi) reg ct
  end.
Definition find_marker (m : Mfm) (mk : MarkerEncoding) (start : nat) (limit : option nat)
  : outcome (option (nat * N)) :=
  if ring_is_empty (m_bits m) then Ok None
  else
    let lim := match limit with Some l => Nat.min l (mfm_len m) | None => mfm_len m end in
    find_marker_loop (m_bits m) mk (lim - start) start 0 0.

(* mfm.rs 444-464 *)
Definition set_data_ranges (m : Mfm) (ranges : list (nat * nat)) : Mfm :=
  let len := mfm_len m in
  let filtered := filter (fun r => negb ((len <=? fst r) || (len <=? snd r))) ranges in
  mkMfm (m_bits m) (m_clock m) (m_error m) (m_weak_enabled m) (m_weak m) (m_phase m) (m_cursor m)
        (range_new ranges) (range_new filtered).
Definition is_data (m : Mfm) (index : nat) (wrapping : bool) : bool :=
  range_contains (if wrapping then m_ranges m else m_ranges_f m) index.

(* mfm.rs 552-580 (a plain MFM encoding of four bytes; u64 accumulator) *)
Definition encode_marker_step (st : N * bool) (bit : bool) : N * bool :=
  let '(accum, prev) := st in
  (((4 * accum + (if bit then 1 else if prev then 0 else 2)) mod 2 ^ 64)%N, bit).
Definition mfm_encode_marker (data : list N) : outcome N :=
  if length data =? 4
  then Ok (fst (fold_left encode_marker_step (flat_map byte_bits data) (0%N, false)))
  else Panic.

(* mfm.rs 605-627 *)
Definition weak_step (run : nat) (st : nat * nat * nat) (bit : bool) : nat * nat * nat :=
  let '(region, weak, z) := st in
  let '(region, z) := if bit then ((if run <=? z then S region else region), 0) else (region, S z) in
  (region, (if 3 <? z then S weak else weak), z).
Definition detect_weak_bits (m : Mfm) (run : nat) : outcome (nat * nat) :=
  let! l := ring_iter_revolution (m_bits m) in
  Ok (fst (fold_left (weak_step run) l (0, 0, 0))).
(* mfm.rs 163-165: `!x > 0` on a usize is the bitwise complement of x, compared with 0 (64 bit) *)
Definition mfm_has_weak_bits (m : Mfm) : outcome bool :=
  let! (region, _) := detect_weak_bits m 6 in
  Ok (0 <? 2 ^ 64 - 1 - N.of_nat region)%N.
(* mfm.rs 660-688 *)
Fixpoint weak_mask_loop (run : nat) (l : list bool) (z : nat) : list bool :=
  match l with
  | [] => []
  | b :: t => let z := if b then 0 else S z in (run <? z) :: weak_mask_loop run t z
  end.
Definition create_weak_bit_mask (m : Mfm) (run : nat) : outcome (list bool) :=
  let! l := ring_iter_revolution (m_bits m) in
  let w := weak_mask_loop run l 0 in
  if length w =? mfm_len m then Ok w else Panic.

(* mfm.rs 720-740: sequential decoded reading *)
Definition mfm_next (rnd : nat -> bool) (m : Mfm) : outcome (bool * Mfm) :=
  let! c := nudge m (m_cursor m) in
  let! b := (if m_weak_enabled m then
               let! w := ring_get (m_weak m) (c + 1) in
               if w then Ok (rnd (c + 1)) else ring_get (m_bits m) (c + 1)
             else ring_get (m_bits m) (c + 1)) in
  Ok (b, with_cursor m (c + 2)).
(* mfm.rs 744-765, SeekFrom::Start *)
Definition mfm_seek_start (m : Mfm) (off : nat) : outcome Mfm :=
  if ring_is_empty (m_bits m) then Err IoError
  else let! c := nudge m off in Ok (with_cursor m c).
(* mfm.rs 769-788 *)
Definition mfm_read_byte (rnd : nat -> bool) (m : Mfm) : outcome (N * Mfm) :=
  ofold (fun '(byte, m) _ => let! (b, m') := mfm_next rnd m in Ok (as_u8 (2 * byte + b2N b), m'))
        (seq 0 8) (0%N, m).
Fixpoint mfm_read_loop (rnd : nat -> bool) (n : nat) (m : Mfm) : outcome (list N * Mfm) :=
  match n with
  | O => Ok ([], m)
  | S k => let! (b, m1) := mfm_read_byte rnd m in
           let! (l, m2) := mfm_read_loop rnd k m1 in Ok (b :: l, m2)
  end.
Definition mfm_read (rnd : nat -> bool) (n : nat) (m : Mfm) : outcome (list N * Mfm) :=
  if ring_is_empty (m_bits m) then Err IoError else mfm_read_loop rnd n m.
