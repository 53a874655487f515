(* MetaSector_model.v - src/track/metasector.rs: tracks stored as a list of sectors.
   Simplifications: the write counter shared by all tracks is returned as an increment; log output and
   the size set kept only for log output are dropped; random bytes come from an oracle; track-level
   fields that no modelled method uses (encoding, data rate, schema) are dropped; hash() (SHA-1) is not
   modelled. *)
From Verif Require Import Base Chs_model Types_model.

(* metasector.rs:100-103 MetaMask *)
Record MetaMask : Set := mkMask { mm_has_bits : bool; mm_mask : list N }.
Definition any_bit (l : list N) : bool := existsb (fun x => negb (x =? 0)%N) l.
(* 106-111 empty *)
Definition mask_empty (len : nat) : MetaMask := mkMask false (repeat 0%N len).
(* 112-120 from / set_mask *)
Definition mask_from (m : list N) : MetaMask := mkMask (any_bit m) m.
(* 128-133 or_slice; indexing past the mask panics *)
Definition or_slice (mm : MetaMask) (src : list N) : outcome MetaMask :=
  if length (mm_mask mm) <? length src then Panic
  else
    let m := map (fun p => N.lor (fst p) (snd p)) (combine (mm_mask mm) src) ++ skipn (length src) (mm_mask mm) in
    Ok (mkMask (any_bit m) m).

(* metasector.rs:157-166 MetaSector *)
Record MetaSector : Set := mkMS {
  ms_id : DiskChsn; ms_address_error : bool; ms_data_error : bool; ms_deleted : bool; ms_no_dam : bool;
  ms_data : list N; ms_weak : MetaMask; ms_hole : MetaMask }.

(* metasector.rs:169-183 read_data; rnd i is the random byte drawn for byte i; data[i] panics past the end *)
Fixpoint blend (i : nat) (rnd : nat -> N) (masks : list N) (data : list N) : outcome (list N) :=
  match masks with
  | [] => Ok data
  | m :: ms =>
      match data with
      | [] => if (m =? 0)%N then blend (S i) rnd ms [] else Panic
      | d :: ds =>
          let d' := if (m =? 0)%N then d else N.lor (N.ldiff d m) (N.land (rnd i) m) in
          let! r := blend (S i) rnd ms ds in Ok (d' :: r)
      end
  end.
Definition ms_read_data (rnd : nat -> N) (s : MetaSector) : outcome (list N) :=
  if ms_no_dam s then Ok []
  else blend 0 rnd (map (fun p => N.lor (fst p) (snd p)) (combine (mm_mask (ms_weak s)) (mm_mask (ms_hole s)))) (ms_data s).

(* metasector.rs:188-197 MetaSectorTrack *)
Record MetaSectorTrack : Set := mkMST { mt_ch : DiskCh; mt_sectors : list MetaSector }.

(* 254-266 has_sector_id *)
Definition chsn_eqb (a b : DiskChsn) : bool :=
  ((chsn_c a =? chsn_c b) && (chsn_h a =? chsn_h b) && (chsn_s a =? chsn_s b) && (chsn_n a =? chsn_n b))%N.
Definition mt_has_sector_id (t : MetaSectorTrack) (sid : N) (id : option DiskChsn) : bool :=
  existsb (fun s => match id with None => (chsn_s (ms_id s) =? sid)%N | Some c => chsn_eqb (ms_id s) c end) (mt_sectors t).

(* 268-281 sector_list: no_dam is always false *)
Definition mt_sector_list (t : MetaSectorTrack) : list SectorMapEntry :=
  map (fun s => mkEntry (ms_id s) (mkAttr (ms_address_error s) (ms_data_error s) (ms_deleted s) false)) (mt_sectors t).

Fixpoint find_index {A} (f : A -> bool) (l : list A) : option nat :=
  match l with [] => None | x :: t => if f x then Some 0 else option_map S (find_index f t) end.

(* 283-329 add_sector.  xor_vec is created empty (with_capacity) and then indexed, so the first
   iteration of the loop at 316-318 panics; without any iteration it stays empty. *)
Definition mt_add_sector (t : MetaSectorTrack) (p : AddSectorParams) : outcome MetaSectorTrack :=
  let mask o := match o with Some m => mask_from m | None => mask_empty (length (as_data p)) end in
  let a := as_attr p in
  let new_sector := mkMS (as_id p) (at_address_error a) (at_data_error a) (at_deleted a) (at_no_dam a)
                         (as_data p) (mask (as_weak p)) (mask (as_hole p)) in
  let push := Ok (mkMST (mt_ch t) (mt_sectors t ++ [new_sector])) in
  if as_alternate p then
    match find_index (fun s => chsn_eqb (ms_id s) (as_id p)) (mt_sectors t) with
    | Some i =>
        let! es := oindex (mt_sectors t) i in
        let! xor_vec :=
          (match as_data p, ms_data es with _ :: _, _ :: _ => Panic | _, _ => Ok [] end) in
        let! wm := or_slice (ms_weak es) xor_vec in
        let es' := mkMS (ms_id es) (ms_address_error es) (ms_data_error es) (ms_deleted es) (ms_no_dam es)
                        (ms_data es) wm (ms_hole es) in
        Ok (mkMST (mt_ch t) (upd (mt_sectors t) i es'))
    | None => push
    end
  else push.

(* 674-705 match_sectors: positions of the matching sectors and the mismatch flags *)
Record SectorMatch : Set := mkMatch {
  sm_idx : list nat; sm_wrong_cylinder : bool; sm_bad_cylinder : bool; sm_wrong_head : bool }.
Definition match_sectors (t : MetaSectorTrack) (q : DiskChsnQuery) : SectorMatch :=
  let ids := map ms_id (mt_sectors t) in
  mkMatch
    (map fst (filter (fun p => query_matches q (snd p)) (combine (seq 0 (length ids)) ids)))
    (existsb (fun id => match q_c q with Some c => negb (chsn_c id =? c)%N | None => false end) ids)
    (existsb (fun id => (chsn_c id =? 0xFF)%N) ids)
    (existsb (fun id => match q_h q with Some h => negb (chsn_h id =? h)%N | None => false end) ids).

(* 337-391 read_sector (n and offset are ignored) *)
Definition mt_read_sector (rnd : nat -> N) (t : MetaSectorTrack) (q : DiskChsnQuery) (scope : RwScope)
  : outcome ReadSectorResult :=
  match scope with
  | EntireElement => Panic
  | CrcOnly => Err ParameterError
  | DataOnly =>
      let sm := match_sectors t q in
      match sm_idx sm with
      | [] => Ok (mkRead None true false false false None false None
                         (sm_wrong_cylinder sm) (sm_bad_cylinder sm) (sm_wrong_head sm) false (0, 0) [])
      | i :: _ =>
          let! s := oindex (mt_sectors t) i in
          let! buf := ms_read_data rnd s in
          Ok (mkRead (Some (ms_id s)) false false (ms_deleted s) (ms_address_error s) None (ms_data_error s) None
                     (sm_wrong_cylinder sm) (sm_bad_cylinder sm) (sm_wrong_head sm) false
                     (0, length (ms_data s)) buf)
      end
  end.

(* 393-429 scan_sector *)
Definition mt_scan_sector (t : MetaSectorTrack) (q : DiskChsnQuery) : outcome ScanSectorResult :=
  let sm := match_sectors t q in
  match sm_idx sm with
  | [] => Ok (mkScan true false false false false (sm_wrong_cylinder sm) (sm_bad_cylinder sm) (sm_wrong_head sm))
  | i :: _ =>
      let! s := oindex (mt_sectors t) i in
      Ok (mkScan false false (ms_deleted s) (ms_address_error s) (ms_data_error s)
                 (sm_wrong_cylinder sm) (sm_bad_cylinder sm) (sm_wrong_head sm))
  end.

(* 431-494 write_sector: new track, increment of the write counter, result.  An Err leaves the track
   unchanged.  copy_from_slice panics when the stored data has another length. *)
Definition mt_write_sector (t : MetaSectorTrack) (q : DiskChsnQuery) (data : list N) (deleted : bool)
  : outcome (MetaSectorTrack * N * WriteSectorResult) :=
  let sm := match_sectors t q in
  let res nf nd ae := mkWrite nf nd ae (sm_wrong_cylinder sm) (sm_bad_cylinder sm) (sm_wrong_head sm) in
  match sm_idx sm with
  | _ :: _ :: _ => Err UniqueIdError
  | [] => Ok (t, 0%N, res false false false)
  | [i] =>
      let! s := oindex (mt_sectors t) i in
      if negb (n_to_bytes (chsn_n (ms_id s)) =? N.of_nat (length data))%N then Err ParameterError
      else
        let! s' :=
          (if ms_no_dam s || ms_address_error s then Ok s
           else if negb (length (ms_data s) =? length data) then Panic
           else Ok (mkMS (ms_id s) (ms_address_error s) (ms_data_error s) deleted (ms_no_dam s) data (ms_weak s) (ms_hole s))) in
        Ok (mkMST (mt_ch t) (upd (mt_sectors t) i s'), 1%N, res false (ms_no_dam s) (ms_address_error s))
  end.

(* 496-504 recalculate_sector_crc *)
Definition mt_recalc_crc (rnd : nat -> N) (t : MetaSectorTrack) (q : DiskChsnQuery) : outcome (MetaSectorTrack * N) :=
  let! rr := mt_read_sector rnd t q DataOnly in
  let! r := mt_write_sector t q (rs_buf rr) (rs_deleted rr) in Ok (fst (fst r), snd (fst r)).

(* 519-573 read_all_sectors (n only sets a capacity); rnd k draws the bytes of the k-th sector read.
   `break` at 536-545 leaves the loop. *)
Fixpoint read_all_loop (rnd : nat -> nat -> N) (k : nat) (track_len : N) (l : list MetaSector) (r : ReadTrackResult)
  : outcome ReadTrackResult :=
  match l with
  | [] => Ok r
  | s :: t =>
      let r1 := mkTrackRead false (rt_deleted r) (rt_address_crc_error r) (rt_data_crc_error r) (rt_sectors_read r) (rt_buf r) 0 0 in
      if (track_len <=? rt_sectors_read r)%N then Ok r1
      else
        let! d := ms_read_data (rnd k) s in
        read_all_loop rnd (S k) track_len t
          (mkTrackRead false (rt_deleted r || ms_deleted s) (rt_address_crc_error r || ms_address_error s)
             (rt_data_crc_error r || ms_data_error s) (rt_sectors_read r + 1) (rt_buf r ++ d) 0 0)
  end.
Definition mt_read_all_sectors (rnd : nat -> nat -> N) (t : MetaSectorTrack) (track_len : N) : outcome ReadTrackResult :=
  let! r := read_all_loop rnd 0 track_len (mt_sectors t) (mkTrackRead true false false false 0 [] 0 0) in
  let n := length (rt_buf r) in
  Ok (mkTrackRead (rt_not_found r) (rt_deleted r) (rt_address_crc_error r) (rt_data_crc_error r)
        (rt_sectors_read r) (rt_buf r) (n * 16) n).

(* 575-600 next_id: the id found carries the caller's cylinder and head *)
Fixpoint next_id_loop (chs : DiskChs) (matched : bool) (l : list DiskChsn) : option DiskChsn * bool :=
  match l with
  | [] => (None, matched)
  | id :: t =>
      if matched then (Some (mkChsn (mkChs (chs_c chs) (chs_h chs) (chsn_s id)) (chsn_n id)), true)
      else next_id_loop chs (chsn_s id =? chs_s chs)%N t
  end.
Definition mt_next_id (t : MetaSectorTrack) (chs : DiskChs) : option DiskChsn :=
  match mt_sectors t with
  | [] => None
  | first :: _ =>
      match next_id_loop chs false (map ms_id (mt_sectors t)) with
      | (Some r, _) => Some r
      | (None, true) => Some (mkChsn (mkChs (chs_c chs) (chs_h chs) (chsn_s (ms_id first))) (chsn_n (ms_id first)))
      | (None, false) => None
      end
  end.

(* 610-612 has_weak_bits *)
Definition mt_has_weak_bits (t : MetaSectorTrack) : bool := existsb (fun s => mm_has_bits (ms_weak s)) (mt_sectors t).

(* 625-657 analysis; `si as u8 + 1` is checked u8 arithmetic *)
Fixpoint analysis_loop (si : N) (l : list MetaSector) (a : TrackAnalysis) : outcome TrackAnalysis :=
  match l with
  | [] => Ok a
  | s :: t =>
      if (as_u8 si =? 255)%N then Panic
      else
        analysis_loop (si + 1) t
          (mkAnalysis (ta_data_error a || ms_data_error s) (ta_address_error a || ms_address_error s)
             (ta_deleted a || ms_deleted s) (ta_no_dam a) (ta_consistent_size a)
             (ta_nonconsecutive a || negb (chsn_s (ms_id s) =? as_u8 si + 1)%N)
             (ta_overlapping a) (ta_crossing_index a) (ta_sector_ct a))
  end.
Definition mt_analysis (t : MetaSectorTrack) : outcome TrackAnalysis :=
  let! a := analysis_loop 0 (mt_sectors t) (mkAnalysis false false false false None false false false 0) in
  let ns := map (fun s => chsn_n (ms_id s)) (mt_sectors t) in
  let last_n := last ns 0%N in
  Ok (mkAnalysis (ta_data_error a) (ta_address_error a) (ta_deleted a) (ta_no_dam a)
        (if forallb (N.eqb last_n) ns then Some last_n else None)
        (ta_nonconsecutive a) (ta_overlapping a) (ta_crossing_index a) (length (mt_sectors t))).
