(* Fm_model.v - src/bitstream_codec/fm.rs: the FM track codec.  BitVec is a list of bool; indexing and set panic out of range. *)
From Verif Require Import Base BitRing_model RangeCheck_model Mfm_model.

(* fm.rs 70-81.  error_map (never written after construction) is omitted. *)
Record Fm : Set := mkFm {
  f_bits : list bool; f_clock : list bool; f_weak_enabled : bool; f_weak : list bool;
  f_phase : nat; f_cursor : nat; f_padding : nat; f_ranges : events; f_ranges_f : events }.
Definition fm_with_bits (m : Fm) (l : list bool) : Fm :=
  mkFm l (f_clock m) (f_weak_enabled m) (f_weak m) (f_phase m) (f_cursor m) (f_padding m) (f_ranges m) (f_ranges_f m).
Definition fm_with_cursor (m : Fm) (c : nat) : Fm :=
  mkFm (f_bits m) (f_clock m) (f_weak_enabled m) (f_weak m) (f_phase m) c (f_padding m) (f_ranges m) (f_ranges_f m).
(* fm.rs 133-135 *)
Definition fm_set_clock_map (m : Fm) (c : list bool) : Fm :=
  mkFm (f_bits m) c (f_weak_enabled m) (f_weak m) (f_phase m) (f_cursor m) (f_padding m) (f_ranges m) (f_ranges_f m).
Definition fm_len (m : Fm) : nat := length (f_bits m).   (* fm.rs 108-110 *)

(* fm.rs 485-521; get_fm_sync_offset and find_sync (88-113) are the same code as their MFM counterparts *)
Definition fm_new (bits : list bool) (bit_ct : option nat) (weak : option (list bool)) : outcome Fm :=
  let bits := match bit_ct with Some n => firstn n bits | None => bits end in
  let sync := match get_mfm_sync_offset bits with Some s => s | None => false end in
  let weak := match weak with Some w => w | None => repeat false (length bits) end in
  if length weak <? length bits then Panic
  else Ok (mkFm bits (repeat sync (length bits)) true weak (if sync then 1 else 0) (if sync then 1 else 0) 0 [] []).

(* for bi in a..b (step s) { byte = byte << 1 | bit[bi] } on a u8 *)
Definition fm_gather (bits : list bool) (idx : list nat) : outcome N :=
  ofold (fun byte bi => let! b := oindex bits bi in Ok (as_u8 (2 * byte + b2N b))) idx 0%N.
(* fm.rs 230-240 *)
Definition fm_read_raw_u8 (m : Fm) (index : nat) : outcome (option N) :=
  if fm_len m <=? index then Ok None
  else let! b := fm_gather (f_bits m) (seq index (Nat.min (index + 8) (fm_len m) - index)) in Ok (Some b).
(* .unwrap() *)
Definition unwrap {A} (x : outcome (option A)) : outcome A :=
  match x with Ok (Some a) => Ok a | Ok None => Panic | Err e => Err e | Panic => Panic end.
(* fm.rs 242-249 *)
Definition fm_read_raw_buf (m : Fm) (n offset : nat) : outcome (list N) :=
  omap (@rev N) (ofold (fun acc k => let! b := unwrap (fm_read_raw_u8 m (offset + k * 8)) in Ok (b :: acc)) (seq 0 n) []).
(* fm.rs 251-258: the mask is 0x80 >> bi with the absolute position bi; a shift by 8 or more overflows *)
Definition fm_write_raw_u8 (m : Fm) (index : nat) (byte : N) : outcome Fm :=
  if fm_len m <=? index then Ok m
  else
    let! l := ofold (fun l bi => if 8 <=? bi then Panic else bits_set l bi (N.testbit byte (N.of_nat (7 - bi))))
                    (seq index (Nat.min (index + 8) (fm_len m) - index)) (f_bits m) in
    Ok (fm_with_bits m l).
(* fm.rs 260-274 *)
Definition fm_write_raw_buf (m : Fm) (buf : list N) (offset : nat) : outcome Fm :=
  let! (l, _) := ofold (fun '(l, off) bit => let! l' := bits_set l off bit in Ok (l', S off)) (flat_map byte_bits buf) (f_bits m, offset) in
  Ok (fm_with_bits m l).
(* (a..b).skip(s).step_by(2) *)
Definition every_other (a b : nat) : list nat := map (fun k => a + 2 * k) (seq 0 ((b - a + 1) / 2)).
(* fm.rs 276-295 *)
Definition fm_read_decoded_u8 (m : Fm) (index : nat) : outcome (option N) :=
  if (fm_len m <=? index) || (length (f_clock m) <=? index) then Ok None
  else
    let! c := oindex (f_clock m) index in
    let! b := fm_gather (f_bits m) (every_other (index + (if c then 1 else 0)) (Nat.min (index + 16) (fm_len m))) in
    Ok (Some b).
(* fm.rs 297-303: todo!() *)
Definition fm_read_decoded_u32_le (m : Fm) (index : nat) : outcome N := Panic.
Definition fm_read_decoded_u32_be (m : Fm) (index : nat) : outcome N := Panic.
(* fm.rs 305-312 *)
Definition fm_read_decoded_buf (m : Fm) (n offset : nat) : outcome (list N) :=
  omap (@rev N) (ofold (fun acc k => let! b := unwrap (fm_read_decoded_u8 m (offset + k)) in Ok (b :: acc)) (seq 0 n) []).
(* fm.rs 337-378 (trait) and 539-580 (inherent): the same code as MfmCodec::encode *)
Definition fm_encode : list N -> bool -> EncodingVariant -> list bool := mfm_encode.
(* fm.rs 314-335: returns the codec and (bits_written + 7) / 8; `len - offset` is a checked subtraction *)
Definition fm_write_encoded_buf (m : Fm) (buf : list N) (offset : nat) : outcome (Fm * nat) :=
  let enc := fm_encode buf false EData in
  let! copy_len := (if fm_len m <? offset + length enc
                    then if fm_len m <? offset then Panic else Ok (fm_len m - offset) else Ok (length enc)) in
  let! c := oindex (f_clock m) offset in
  let phase := if c then 0 else 1 in
  let! (l, n) := ofold (fun '(l, i) bit => let! l' := bits_set l (offset + phase + i) bit in Ok (l', S i)) (firstn copy_len enc) (f_bits m, 0) in
  Ok (fm_with_bits m l, (n + 7) / 8).

(* fm.rs 45-49 *)
Definition FM_DATA_MASK : N := 0x5555%N.
Definition FM_CLOCK_MASK : N := 0xAAAAAAAAAAAAAAAA%N.
Definition FM_CLOCK_PATTERN : N := 0xAAAAAAAAAAAAA02A%N.
(* fm.rs 380-430.  `(bi - 64) + 1` is a checked subtraction. *)
Fixpoint fm_find_loop (l : list bool) (mk : MarkerEncoding) (fuel bi : nat) (reg : N) (ct : nat) : outcome (option (nat * N)) :=
  match fuel with
  | O => Ok None
  | S f =>
      let! b := oindex l bi in
      let reg := ((2 * reg + b2N b) mod 2 ^ 64)%N in
      let ct := S ct in
      let have_marker := (N.land reg FM_CLOCK_MASK =? FM_CLOCK_PATTERN)%N in
      let have_data := (N.land (N.land reg FM_DATA_MASK) (me_mask mk) =? N.land (N.land (me_bits mk) FM_DATA_MASK) (me_mask mk))%N in
      if (64 <=? ct) && have_marker && have_data then
        if bi <? 64 then Panic else Ok (Some (bi - 64 + 1, N.land reg 0xFFFF))
      else fm_find_loop l mk f (S bi) reg ct
  end.
Definition fm_find_marker (m : Fm) (mk : MarkerEncoding) (start : nat) (limit : option nat) : outcome (option (nat * N)) :=
  match f_bits m with
  | [] => Ok None
  | _ => let lim := match limit with Some l => Nat.min l (fm_len m) | None => fm_len m end in
         fm_find_loop (f_bits m) mk (lim - start) start 0 0
  end.

(* fm.rs 737-771 (`len - 1` and `len - padding` are checked subtractions); rnd is rand::random() *)
Definition fm_next (rnd : nat -> bool) (m : Fm) : outcome (option bool * Fm) :=
  if fm_len m =? 0 then Panic
  else if fm_len m - 1 <=? f_cursor m then Ok (None, m)
  else if fm_len m <? f_padding m then Panic
  else
    let d := f_cursor m + 1 in
    let d := if fm_len m - f_padding m <? d then 0 else d in
    let! b := (if f_weak_enabled m then let! w := oindex (f_weak m) d in if w then Ok (rnd d) else oindex (f_bits m) d
               else oindex (f_bits m) d) in
    let c := if fm_len m - f_padding m <=? d + 1 then 0 else d + 1 in
    Ok (Some b, fm_with_cursor m c).
(* fm.rs 773-815, SeekFrom::Start *)
Definition fm_seek_start (m : Fm) (off : nat) : outcome Fm :=
  let c := off * 2 in
  let! k := oindex (f_clock m) c in
  let c := if k then c else c + 1 in
  if fm_len m <? c then Err IoError else Ok (fm_with_cursor m c).
(* fm.rs 817-836: the inner loop stops at the end of the track; the byte is stored and counted anyway *)
Fixpoint fm_read_bits (rnd : nat -> bool) (n : nat) (byte : N) (m : Fm) : outcome (N * Fm) :=
  match n with
  | O => Ok (byte, m)
  | S k => let! (b, m1) := fm_next rnd m in
           match b with Some b => fm_read_bits rnd k (as_u8 (2 * byte + b2N b)) m1 | None => Ok (byte, m1) end
  end.
Fixpoint fm_read (rnd : nat -> bool) (n : nat) (m : Fm) : outcome (list N * Fm) :=
  match n with
  | O => Ok ([], m)
  | S k => let! (b, m1) := fm_read_bits rnd 8 0 m in
           let! (l, m2) := fm_read rnd k m1 in Ok (b :: l, m2)
  end.
