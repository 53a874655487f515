(* BitStream_spec.v - what the bitstream track properties mean. *)
From Verif Require Import Base Chs_model Mfm_model Types_model System34_model System34_spec BitStream_model MetaSector_spec.

(* A track created from bit data (or blank, from a cell count) with no weak bit mask, and given the
   System 34 schema, as DiskImage::add_empty_track does. *)
Definition created (t : BitTrack) : Prop :=
  exists rnd ch data ct t0, bt_new rnd ch data None ct false = Ok t0 /\ t = bt_set_schema t0.
(* Its length in decoded bytes, rounded up. *)
Definition track_size (t : BitTrack) : nat := (length (mfm_data (bt_data t)) + 15) / 16.
Definition byte_id (i : DiskChsn) : Prop := (chsn_c i < 256 /\ chsn_h i < 256 /\ chsn_s i < 256 /\ chsn_n i < 256)%N.
(* The format parameters make sense and the sectors fit the track. *)
Record format_ok (t : BitTrack) (std : Standard) (ids : list DiskChsn) (pat : list N) (gap3 : nat) : Prop := mkFO {
  fo_created : created t;
  fo_pat : pat <> [] /\ bytes_ok pat = true;
  fo_ids : Forall byte_id ids;
  fo_fits : fits std gap3 (track_size t) (filled pat 0 ids) }.

(* Bit positions of the sector headers of a formatted track. *)
Definition header_pos (std : Standard) (gap3 : nat) (ids : list DiskChsn) : list nat :=
  map (fun x => 16 * (fst x + 12)) (track_slots std gap3 (map (fun i => mkFS i (repeat 0%N (n_size i))) ids)).
(* Sector k is the first one whose header is at or after `off` and agrees with the query. *)
Definition first_from (pos : list nat) (ids : list DiskChsn) (q : DiskChsnQuery) (off k : nat) : Prop :=
  (exists id p, nth_error ids k = Some id /\ nth_error pos k = Some p /\ off <= p /\ agrees q id) /\
  forall j id p, j < k -> nth_error ids j = Some id -> nth_error pos j = Some p -> off <= p -> ~ agrees q id.
Definition none_from (pos : list nat) (ids : list DiskChsn) (q : DiskChsnQuery) (off : nat) : Prop :=
  forall j id p, nth_error ids j = Some id -> nth_error pos j = Some p -> off <= p -> ~ agrees q id.

(* A write request. *)
Record breq : Set := mkB {
  b_query : DiskChsnQuery; b_offset : option nat; b_data : list N; b_scope : RwScope; b_deleted : bool; b_debug : bool }.
(* A request that must take effect on sector i. *)
Definition names (std : Standard) (gap3 : nat) (ids : list DiskChsn) (i : nat) (w : breq) : Prop :=
  first_from (header_pos std gap3 ids) ids (b_query w) (off_of (b_offset w)) i.
Definition takes_effect (std : Standard) (gap3 : nat) (ids : list DiskChsn) (i : nat) (w : breq) : Prop :=
  names std gap3 ids i w /\ b_deleted w = false /\
  exists id, nth_error ids i = Some id /\ length (b_data w) = n_size id.
Definition last_req (P : breq -> Prop) (hist : list breq) (w : breq) : Prop :=
  exists pre post, hist = pre ++ w :: post /\ P w /\ Forall (fun x => ~ P x) post.
(* Running a history of writes; a write returning an error leaves the track as it was. *)
Definition bs_step (t : BitTrack) (w : breq) : outcome BitTrack :=
  match bt_write_sector t (b_query w) (b_offset w) (b_data w) (b_scope w) (b_deleted w) (b_debug w) with
  | Ok (t', _) => Ok t' | Err _ => Ok t | Panic => Panic
  end.
Definition run_requests (t : BitTrack) (h : list breq) : outcome BitTrack := ofold bs_step h t.

(* A successful read of sector id: no error flag, a valid CRC. *)
Definition clean_read (r : ReadSectorResult) (id : DiskChsn) : Prop :=
  rs_id r = Some id /\ rs_not_found r = false /\ rs_no_dam r = false /\ rs_deleted r = false /\
  rs_address_crc_error r = false /\ rs_data_crc_error r = false /\ rs_wrong_cylinder r = false /\
  rs_bad_cylinder r = false /\ rs_wrong_head r = false /\
  exists c, rs_data_crc r = Some c /\ integrity_valid c = true.
(* The fill of the i-th sector of a format. *)
Definition initial_data (pat : list N) (ids : list DiskChsn) (i : nat) : option (list N) :=
  option_map fs_data (nth_error (filled pat 0 ids) i).
