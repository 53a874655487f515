(* DiskImage_model.v - src/diskimage.rs: the track pool and track map of a disk image, adding and removing
   tracks, sector access by physical cylinder and head, analysis and normalisation; src/track/fluxstream.rs:
   delegation of a flux track to its best decoded revolution.
   Not modelled here: metadata, source map, flags, the shared write counter, file loading and saving,
   data rate / encoding / rpm of a track (every track is MFM), boot sector parsing and format() (see
   Format_model.v).  SHA-1 is an argument (`hash`); flux decoding is an argument (`decoded`). *)
From Verif Require Import Base Chs_model BitRing_model Mfm_model Types_model System34_model MetaSector_model BitStream_model.

(* types/enums.rs 50-61; Ord is by discriminant *)
Inductive Resolution : Set := RMetaSector | RBitStream | RFluxStream.
Definition res_num (r : Resolution) : nat := match r with RMetaSector => 0 | RBitStream => 1 | RFluxStream => 2 end.
Definition res_eqb (a b : Resolution) : bool := res_num a =? res_num b.

(* fluxstream.rs 137-157: number of revolutions, decoded revolutions, chosen revolution; `resolved` is
   never set anywhere and dropped *)
Record FluxTrack : Set := mkFlux { ft_ch : DiskCh; ft_revs : nat; ft_decoded : list (option BitTrack); ft_best : nat }.
(* fluxstream.rs 733-749 get_bitstream (and _mut) *)
Definition ft_bitstream (f : FluxTrack) : outcome (option BitTrack) :=
  if ft_best f <? ft_revs f then oindex (ft_decoded f) (ft_best f) else Ok None.
Definition ft_with_bitstream (f : FluxTrack) (t : BitTrack) : FluxTrack :=
  mkFlux (ft_ch f) (ft_revs f) (upd (ft_decoded f) (ft_best f) (Some t)) (ft_best f).
(* fluxstream.rs 646-694 analyze_revolutions: the first revolution with the highest score above 0 *)
Fixpoint best_loop (i : nat) (l : list (option BitTrack)) (best : nat) (score : Z) : nat :=
  match l with
  | [] => best
  | None :: t => best_loop (S i) t best score
  | Some b :: t =>
      let s := bt_quality_score b in
      if (score <? s)%Z then best_loop (S i) t i s else best_loop (S i) t best score
  end.
Definition analyze_revolutions (f : FluxTrack) : FluxTrack :=
  match ft_revs f with
  | O => f
  | _ => mkFlux (ft_ch f) (ft_revs f) (ft_decoded f) (best_loop 0 (ft_decoded f) 0 0%Z)
  end.

(* track/mod.rs: dyn Track *)
Inductive DTrack : Set := TMeta (t : MetaSectorTrack) | TBit (t : BitTrack) | TFlux (t : FluxTrack).
(* sources of random data: bytes for MetaSector weak data, bits for bitstream weak cells *)
Record Rnd : Set := mkRnd { rnd_byte : nat -> N; rnd_bit : nat -> bool; rnd_sector : nat -> nat -> N }.

(* resolution(), ch(), set_ch(), sector_ct() of the three track types *)
Definition tk_res (t : DTrack) : Resolution :=
  match t with TMeta _ => RMetaSector | TBit _ => RBitStream | TFlux _ => RFluxStream end.
Definition tk_ch (t : DTrack) : DiskCh :=
  match t with TMeta t => mt_ch t | TBit t => bt_ch t | TFlux t => ft_ch t end.
Definition tk_set_ch (t : DTrack) (ch : DiskCh) : DTrack :=
  match t with
  | TMeta t => TMeta (mkMST ch (mt_sectors t))
  | TBit t => TBit (mkTrack ch (bt_data t) (bt_meta t) (bt_schema t))
  | TFlux t => TFlux (mkFlux ch (ft_revs t) (ft_decoded t) (ft_best t))
  end.
(* fluxstream.rs: every operation of a flux track goes to the chosen revolution, or returns a default *)
Definition on_flux {A} (f : FluxTrack) (dflt : outcome A) (k : BitTrack -> outcome A) : outcome A :=
  let! b := ft_bitstream f in match b with Some b => k b | None => dflt end.
Definition tk_sector_ct (t : DTrack) : outcome nat :=
  match t with
  | TMeta t => Ok (length (mt_sectors t))
  | TBit t => Ok (bt_sector_ct t)
  | TFlux f => on_flux f (Ok 0) (fun b => Ok (bt_sector_ct b))
  end.
Definition tk_sector_list (t : DTrack) : outcome (list SectorMapEntry) :=
  match t with
  | TMeta t => Ok (mt_sector_list t)
  | TBit t => Ok (bt_sector_list t)
  | TFlux f => on_flux f (Ok []) (fun b => Ok (bt_sector_list b))
  end.
Definition tk_read_sector (rnd : Rnd) (t : DTrack) (q : DiskChsnQuery) (n : option N) (offset : option nat)
    (scope : RwScope) (debug : bool) : outcome ReadSectorResult :=
  match t with
  | TMeta t => mt_read_sector (rnd_byte rnd) t q scope
  | TBit t => bt_read_sector (rnd_bit rnd) t q n offset scope debug
  | TFlux f => on_flux f (Err ResolveError) (fun b => bt_read_sector (rnd_bit rnd) b q n offset scope debug)
  end.
Definition tk_write_sector (t : DTrack) (q : DiskChsnQuery) (offset : option nat) (data : list N)
    (scope : RwScope) (deleted debug : bool) : outcome (DTrack * WriteSectorResult) :=
  match t with
  | TMeta t => let! r := mt_write_sector t q data deleted in Ok (TMeta (fst (fst r)), snd r)
  | TBit t => let! (t', w) := bt_write_sector t q offset data scope deleted debug in Ok (TBit t', w)
  | TFlux f => on_flux f (Err ResolveError) (fun b =>
      let! (b', w) := bt_write_sector b q offset data scope deleted debug in Ok (TFlux (ft_with_bitstream f b'), w))
  end.
Definition tk_analysis (t : DTrack) : outcome TrackAnalysis :=
  match t with
  | TMeta t => mt_analysis t
  | TBit t => bt_analysis t
  | TFlux f => on_flux f (Err ResolveError) bt_analysis
  end.
Definition tk_next_id (t : DTrack) (chs : DiskChs) : outcome (option DiskChsn) :=
  match t with
  | TMeta t => Ok (mt_next_id t chs)
  | TBit t => Ok (bt_next_id t chs)
  | TFlux f => on_flux f (Ok None) (fun b => Ok (bt_next_id b chs))
  end.
(* metasector.rs 614-622: formatting a MetaSector track is unsupported *)
Definition tk_format (rnd : Rnd) (t : DTrack) (std : Standard) (ids : list DiskChsn) (pat : list N) (gap3 : nat)
  : outcome DTrack :=
  match t with
  | TMeta _ => Err UnsupportedFormat
  | TBit t => let! t' := bt_format (rnd_bit rnd) t std ids pat gap3 in Ok (TBit t')
  | TFlux f => on_flux f (Err ResolveError) (fun b =>
      let! b' := bt_format (rnd_bit rnd) b std ids pat gap3 in Ok (TFlux (ft_with_bitstream f b')))
  end.

(* structs.rs 89-108 DiskAnalysis and the FormatCaps bits analyze() sets; `weak` and `overlapped` are
   never assigned after construction and dropped *)
Record Caps : Set := mkCaps {
  cap_variable_spt : bool; cap_variable_sspt : bool; cap_data_crc : bool; cap_address_crc : bool;
  cap_data_deleted : bool; cap_no_dam : bool; cap_weak : bool }.
Definition caps_empty : Caps := mkCaps false false false false false false false.
Record DiskAnalysis : Set := mkDA {
  da_caps : Caps; da_deleted : bool; da_no_dam : bool; da_address_error : bool; da_data_error : bool;
  da_size : option N; da_spt : option N }.
Definition da_default : DiskAnalysis := mkDA caps_empty false false false false None None.

(* diskimage.rs 110-145 *)
Record DiskImage : Set := mkDI {
  di_multires : bool; di_res : list Resolution; di_geom : DiskCh; di_analysis : DiskAnalysis;
  di_pool : list DTrack; di_map0 : list nat; di_map1 : list nat }.
(* 147-166 *)
Definition di_default : DiskImage := mkDI false [] (mkCh 0 0) da_default [] [] [].
(* 178-205: geometry and sectors per track of the standard format *)
Definition di_create (geom : DiskCh) (spt : N) : DiskImage :=
  mkDI false [] geom (mkDA caps_empty false false false false (Some 2%N) (Some spt)) [] [] [].

(* track_map[h]: indexing the two-element array panics for h >= 2 *)
Definition head_map (d : DiskImage) (h : N) : outcome (list nat) :=
  match h with 0%N => Ok (di_map0 d) | 1%N => Ok (di_map1 d) | _ => Panic end.
Definition with_res (d : DiskImage) (r : list Resolution) : DiskImage :=
  mkDI (di_multires d) r (di_geom d) (di_analysis d) (di_pool d) (di_map0 d) (di_map1 d).
Definition with_pool (d : DiskImage) (p : list DTrack) : DiskImage :=
  mkDI (di_multires d) (di_res d) (di_geom d) (di_analysis d) p (di_map0 d) (di_map1 d).
Definition with_maps (d : DiskImage) (m0 m1 : list nat) : DiskImage :=
  mkDI (di_multires d) (di_res d) (di_geom d) (di_analysis d) (di_pool d) m0 m1.
Definition with_analysis (d : DiskImage) (a : DiskAnalysis) : DiskImage :=
  mkDI (di_multires d) (di_res d) (di_geom d) a (di_pool d) (di_map0 d) (di_map1 d).
Definition with_geom (d : DiskImage) (g : DiskCh) : DiskImage :=
  mkDI (di_multires d) (di_res d) g (di_analysis d) (di_pool d) (di_map0 d) (di_map1 d).
(* 262-268 *)
Definition set_multires (d : DiskImage) (b : bool) : DiskImage :=
  mkDI b (di_res d) (di_geom d) (di_analysis d) (di_pool d) (di_map0 d) (di_map1 d).
(* 744-747 *)
Definition set_resolution (d : DiskImage) (r : Resolution) : DiskImage := with_res d [r].

(* 220-229 track_idx_iter, 207-218 track_iter, 231-234 track_ch_iter *)
Definition opt_list {A} (o : option A) : list A := match o with Some x => [x] | None => [] end.
Definition track_idx_iter (d : DiskImage) : list nat :=
  flat_map (fun i => opt_list (nth_error (di_map0 d) i) ++ opt_list (nth_error (di_map1 d) i))
           (seq 0 (Nat.max (length (di_map0 d)) (length (di_map1 d)))).
Definition track_iter (d : DiskImage) : list DTrack :=
  flat_map (fun i => flat_map (fun m => match nth_error m i with
                                        | Some ti => opt_list (nth_error (di_pool d) ti) | None => [] end)
                              [di_map0 d; di_map1 d])
           (seq 0 (Nat.max (length (di_map0 d)) (length (di_map1 d)))).
Fixpoint omapM {A B} (f : A -> outcome B) (l : list A) : outcome (list B) :=
  match l with [] => Ok [] | x :: t => let! y := f x in let! r := omapM f t in Ok (y :: r) end.
Definition track_ch_iter (d : DiskImage) : outcome (list DiskCh) :=
  omapM (fun ti => let! t := oindex (di_pool d) ti in Ok (tk_ch t)) (track_idx_iter d).
(* 236-246 track *)
Definition di_track (d : DiskImage) (ch : DiskCh) : outcome (option DTrack) :=
  let! m := head_map d (ch_h ch) in
  Ok (match nth_error m (N.to_nat (ch_c ch)) with Some ti => nth_error (di_pool d) ti | None => None end).

(* FoxHashSet<TrackDataResolution> *)
Definition res_mem (r : Resolution) (s : list Resolution) : bool := existsb (res_eqb r) s.
Definition res_insert (r : Resolution) (s : list Resolution) : list Resolution :=
  if res_mem r s then s else s ++ [r].
(* 781-795, 838-852, 893-906, 1132-1147 *)
Definition res_rejects (d : DiskImage) (r : Resolution) : bool :=
  negb (di_multires d) && negb (match di_res d with [] => true | _ => false end) && negb (res_mem r (di_res d)).
(* track_pool.push; track_map[h].push(pool.len() - 1); h < 2 was checked *)
Definition push_track (d : DiskImage) (h : N) (t : DTrack) : DiskImage :=
  let ti := length (di_pool d) in
  mkDI (di_multires d) (di_res d) (di_geom d) (di_analysis d) (di_pool d ++ [t])
       (if (h =? 0)%N then di_map0 d ++ [ti] else di_map0 d)
       (if (h =? 0)%N then di_map1 d else di_map1 d ++ [ti]).

(* 772-817 add_track_fluxstream: set_ch, synthesize_revolutions, decode_revolutions(?), analyze_revolutions.
   `decoded` is the outcome of decoding every (also synthetic) revolution.  The result is the image (also
   after an error) and the pool index of the new track. *)
Definition add_track_fluxstream (d : DiskImage) (ch : DiskCh) (decoded : outcome (list BitTrack))
  : DiskImage * outcome nat :=
  if (2 <=? ch_h ch)%N then (d, Err SeekError)
  else if res_rejects d RFluxStream then (d, Err IncompatibleImage)
  else
    let d := with_res d (res_insert RFluxStream (di_res d)) in
    match decoded with
    | Ok bs => (push_track d (ch_h ch) (TFlux (analyze_revolutions (mkFlux ch (length bs) (map Some bs) 0))),
                Ok (length (di_pool d)))
    | Err e => (d, Err e)
    | Panic => (d, Panic)
    end.
(* 833-870 add_track_bitstream *)
Definition add_track_bitstream (rnd : Rnd) (d : DiskImage) (ch : DiskCh) (data : list N) (weak : option (list N))
    (bitcell_ct : option nat) (detect_weak : bool) : DiskImage * outcome nat :=
  if (2 <=? ch_h ch)%N then (d, Err SeekError)
  else if res_rejects d RBitStream then (d, Err IncompatibleImage)
  else
    let d := with_res d (res_insert RBitStream (di_res d)) in
    match bt_new (rnd_bit rnd) ch data weak bitcell_ct detect_weak with
    | Ok t => (push_track d (ch_h ch) (TBit t), Ok (length (di_pool d)))
    | Err e => (d, Err e)
    | Panic => (d, Panic)
    end.
(* 888-923 add_track_metasector *)
Definition add_track_metasector (d : DiskImage) (ch : DiskCh) : DiskImage * outcome nat :=
  if (2 <=? ch_h ch)%N then (d, Err SeekError)
  else if res_rejects d RMetaSector then (d, Err IncompatibleImage)
  else
    let d := with_res d (res_insert RMetaSector (di_res d)) in
    (push_track d (ch_h ch) (TMeta (mkMST ch [])), Ok (length (di_pool d))).
(* 1115-1249 add_empty_track, encoding MFM.  The resolution of the new track is the least in the set. *)
Definition res_min (s : list Resolution) : Resolution :=
  if res_mem RMetaSector s then RMetaSector else if res_mem RBitStream s then RBitStream else RFluxStream.
Definition empty_bits (bitcells : nat) (start_clock : option bool) : list bool :=
  match start_clock with
  | Some c => map (fun i => i mod 2 =? (if c then 1 else 0)) (seq 0 bitcells)
  | None => repeat false bitcells
  end.
Definition add_empty_track (d : DiskImage) (ch : DiskCh) (res : option Resolution) (bitcells : nat)
    (start_clock : option bool) : DiskImage * outcome nat :=
  if (2 <=? ch_h ch)%N then (d, Err SeekError)
  else if match res with Some r => res_rejects d r | None => false end then (d, Err IncompatibleImage)
  else
    let d := match res with Some r => with_res d (res_insert r (di_res d)) | None => d end in
    match di_res d with
    | [] => (d, Err IncompatibleImage)
    | _ =>
        match head_map d (ch_h ch) with
        | Ok m =>
            let sparse := negb (length m =? N.to_nat (ch_c ch)) in
            match res_min (di_res d) with
            | RBitStream =>
                if sparse then (d, Err ParameterError)
                else match mfm_new (empty_bits bitcells start_clock) None None with
                     | Ok s => (push_track d (ch_h ch) (TBit (mkTrack ch s meta_default true)), Ok (length (di_pool d)))
                     | Err e => (d, Err e)
                     | Panic => (d, Panic)
                     end
            | RMetaSector =>
                if sparse then (d, Err ParameterError)
                else (push_track d (ch_h ch) (TMeta (mkMST ch [])), Ok (length (di_pool d)))
            | RFluxStream => (d, Err IncompatibleImage)
            end
        | Err e => (d, Err e)
        | Panic => (d, Panic)
        end
    end.

(* the bounds check and track lookup shared by 966-1113 and 1251-1262 *)
Definition seek_track (d : DiskImage) (ch : DiskCh) : outcome (nat * DTrack) :=
  if (1 <? ch_h ch)%N then Err SeekError
  else
    let! m := head_map d (ch_h ch) in
    if length m <=? N.to_nat (ch_c ch) then Err SeekError
    else
      let! ti := oindex m (N.to_nat (ch_c ch)) in
      let! t := oindex (di_pool d) ti in Ok (ti, t).
(* 966-984 *)
Definition di_read_sector (rnd : Rnd) (d : DiskImage) (ch : DiskCh) (q : DiskChsnQuery) (n : option N)
    (offset : option nat) (scope : RwScope) (debug : bool) : outcome ReadSectorResult :=
  let! (_, t) := seek_track d ch in tk_read_sector rnd t q n offset scope debug.
(* 988-1006 *)
Definition di_read_sector_basic (rnd : Rnd) (d : DiskImage) (ch : DiskCh) (q : DiskChsnQuery) (offset : option nat)
  : outcome (list N) :=
  let! (_, t) := seek_track d ch in
  let! r := tk_read_sector rnd t q (q_n q) offset DataOnly false in
  if rs_not_found r || rs_address_crc_error r || rs_no_dam r then Err IdError else read_data_of r.
(* 1008-1025 *)
Definition di_write_sector (d : DiskImage) (ch : DiskCh) (q : DiskChsnQuery) (offset : option nat) (data : list N)
    (scope : RwScope) (deleted debug : bool) : outcome (DiskImage * WriteSectorResult) :=
  let! (ti, t) := seek_track d ch in
  let! (t', w) := tk_write_sector t q offset data scope deleted debug in
  Ok (with_pool d (upd (di_pool d) ti t'), w).
(* 1027-1051: the image after the call (also when IdError is returned) *)
Definition di_write_sector_basic (d : DiskImage) (ch : DiskCh) (q : DiskChsnQuery) (offset : option nat) (data : list N)
  : DiskImage * outcome unit :=
  match di_write_sector d ch q offset data DataOnly false false with
  | Ok (d', w) => (d', if wr_not_found w || wr_address_crc_error w || wr_no_dam w then Err IdError else Ok tt)
  | Err e => (d, Err e)
  | Panic => (d, Panic)
  end.
(* 1360-1368 *)
Definition di_next_id (d : DiskImage) (chs : DiskChs) : outcome (option DiskChsn) :=
  match seek_track d (mkCh (chs_c chs) (chs_h chs)) with
  | Ok (_, t) => tk_next_id t chs
  | Err _ => Ok None
  | Panic => Panic
  end.

(* 1546-1628 analyze *)
Record Acc : Set := mkAcc {
  ac_spt : list nat; ac_ct : nat; ac_data : bool; ac_addr : bool; ac_del : bool; ac_nodam : bool;
  ac_variable : bool; ac_sizes : list N; ac_last : N }.
Definition set_insert {A} (eqb : A -> A -> bool) (x : A) (s : list A) : list A :=
  if existsb (eqb x) s then s else s ++ [x].
Definition acc_step (pool : list DTrack) (a : Acc) (ti : nat) : outcome Acc :=
  let! t := oindex pool ti in
  match tk_analysis t with
  | Panic => Panic
  | Err _ => Ok a
  | Ok ta =>
      let a := match ta_consistent_size ta with
               | None => mkAcc (ac_spt a) (ac_ct a) (ac_data a) (ac_addr a) (ac_del a) (ac_nodam a) true (ac_sizes a) (ac_last a)
               | Some s =>
                   if (0 <? s)%N
                   then mkAcc (ac_spt a) (ac_ct a) (ac_data a) (ac_addr a) (ac_del a) (ac_nodam a) (ac_variable a)
                              (set_insert N.eqb s (ac_sizes a)) s
                   else a
               end in
      Ok (if 0 <? ta_sector_ct ta
          then mkAcc (set_insert Nat.eqb (ta_sector_ct ta) (ac_spt a)) (ta_sector_ct ta)
                     (ac_data a || ta_data_error ta) (ac_addr a || ta_address_error ta)
                     (ac_del a || ta_deleted ta) (ac_nodam a || ta_no_dam ta)
                     (ac_variable a) (ac_sizes a) (ac_last a)
          else a)
  end.
(* set_track_analysis (structs.rs 111-122), then 1592-1627.  The value of consistent_sector_size that
   1593-1595 stores is always overwritten by 1607-1613. *)
Definition di_analyze (d : DiskImage) : outcome DiskImage :=
  let! a := ofold (acc_step (di_pool d)) (track_idx_iter d) (mkAcc [] 0 false false false false false [] 0%N) in
  let spt := if 1 <? length (ac_spt a) then None else Some (N.of_nat (ac_ct a)) in
  let size := if ac_variable a then None else Some (ac_last a) in
  let none (A : Type) (o : option A) := match o with None => true | Some _ => false end in
  let caps := mkCaps (none _ spt) (none _ size) (ac_data a) (ac_addr a) (ac_del a) (ac_nodam a) (cap_weak (da_caps (di_analysis d))) in
  Ok (with_analysis d (mkDA caps (ac_del a) (ac_nodam a) (ac_addr a) (ac_data a) size spt)).

(* 1251-1272: on an error of format the image is unchanged (bt_format fails before the track is changed) *)
Definition di_format_track (rnd : Rnd) (d : DiskImage) (ch : DiskCh) (ids : list DiskChsn) (pat : list N) (gap3 : nat)
  : outcome DiskImage :=
  let! (ti, t) := seek_track d ch in
  let! t' := tk_format rnd t SIso ids pat gap3 in
  di_analyze (with_pool d (upd (di_pool d) ti t')).

(* 1275-1289 *)
Definition reset_image (d : DiskImage) : DiskImage := mkDI false (di_res d) (di_geom d) da_default [] [] [].

(* 1678-1697 remove_odd_tracks: the odd positions, removed in descending order *)
Fixpoint remove_at {A} (i : nat) (l : list A) : list A :=
  match l, i with [], _ => [] | _ :: t, O => t | x :: t, S j => x :: remove_at j t end.
Definition odd_positions (m : list nat) : list nat := filter (fun i => negb (i mod 2 =? 0)) (seq 0 (length m)).
Definition remove_positions (m : list nat) (ps : list nat) : list nat := fold_left (fun l i => remove_at i l) (rev ps) m.
Definition remove_odd_tracks (d : DiskImage) : DiskImage :=
  with_maps d (remove_positions (di_map0 d) (odd_positions (di_map0 d)))
              (remove_positions (di_map1 d) (odd_positions (di_map1 d))).
(* 1744-1769 remove_empty_tracks *)
Definition empty_positions (pool : list DTrack) (m : list nat) : outcome (list nat) :=
  ofold (fun acc '(i, ti) => let! t := oindex pool ti in let! n := tk_sector_ct t in
                             Ok (if n =? 0 then acc ++ [i] else acc))
        (combine (seq 0 (length m)) m) [].
Definition remove_empty_tracks (d : DiskImage) : outcome DiskImage :=
  let! e0 := empty_positions (di_pool d) (di_map0 d) in
  let! e1 := empty_positions (di_pool d) (di_map1 d) in
  Ok (with_maps d (remove_positions (di_map0 d) e0) (remove_positions (di_map1 d) e1)).
(* 1772-1796 remap_tracks; logical_cylinder is a u16 *)
Definition remap_head (pool : list DTrack) (m : list nat) : outcome (list DTrack) :=
  let! (p, _) := ofold (fun '(pool, c) ti =>
      let! t := oindex pool ti in
      let ch := tk_ch t in
      let pool := if (ch_c ch =? c)%N then pool else upd pool ti (tk_set_ch t (mkCh c (ch_h ch))) in
      if (c =? 65535)%N then Panic else Ok (pool, (c + 1)%N)) m (pool, 0%N) in
  Ok p.
Definition remap_tracks (d : DiskImage) : outcome DiskImage :=
  let! p := remap_head (di_pool d) (di_map0 d) in
  let! p := remap_head p (di_map1 d) in
  Ok (with_pool d p).
(* 1635-1674: pairs of consecutive entries (chunks_exact(2)) *)
Fixpoint pairs {A} (l : list A) : list (A * A) :=
  match l with a :: b :: t => (a, b) :: pairs t | _ => [] end.
Definition count_pairs (f : nat * nat -> outcome bool) (l : list (nat * nat)) : outcome nat :=
  ofold (fun n p => let! b := f p in Ok (if b then S n else n)) l 0.
Definition detect_empty_odd (d : DiskImage) (m : list nat) : outcome nat :=
  count_pairs (fun '(a, b) =>
    let! t0 := oindex (di_pool d) a in let! n0 := tk_sector_ct t0 in
    let! t1 := oindex (di_pool d) b in let! n1 := tk_sector_ct t1 in
    Ok ((0 <? n0) && (n1 =? 0))) (pairs m).
Definition detect_duplicate_odd (hash : DTrack -> N) (d : DiskImage) (m : list nat) : outcome nat :=
  count_pairs (fun '(a, b) =>
    let! t0 := oindex (di_pool d) a in let! n0 := tk_sector_ct t0 in
    let! t1 := oindex (di_pool d) b in
    Ok ((0 <? n0) && (hash t0 =? hash t1)%N)) (pairs m).
(* 1494-1503 *)
Definition normalize_cylinders (c : nat) : nat := if 79 <? c then 80 else if 39 <? c then 40 else c.
(* 1488-1542 normalize *)
Definition drop_odd (d : DiskImage) : DiskImage :=
  let d := remove_odd_tracks d in
  with_geom d (mkCh (as_u16 (N.of_nat (length (di_map0 d)))) (ch_h (di_geom d))).
Definition normalize (hash : DTrack -> N) (d : DiskImage) : outcome DiskImage :=
  let track_ct := length (track_idx_iter d) in
  let! empty_odd := detect_empty_odd d (di_map0 d) in
  if (50 <? track_ct) && (normalize_cylinders track_ct / 2 <=? empty_odd)
  then remap_tracks (drop_odd d)
  else
    let! dup := detect_duplicate_odd hash d (di_map0 d) in
    if (50 <? length (di_map0 d)) && (normalize_cylinders (length (di_map0 d)) / 2 <=? dup)
    then remap_tracks (drop_odd d)
    else Ok d.
