(* Chs_model.v - src/types/chs.rs and src/types/sector_layout.rs. No proofs here.
   Field types: c : u16, h, s, s_off, n : u8, size : usize; `layout_ok` below states the type
   ranges.  usize arithmetic is unbounded (c*h*s < 2^32 cannot overflow a 64-bit usize). *)
From Verif Require Import Base.
Local Open Scope N_scope.

Definition MAXIMUM_SECTOR_SIZE : N := 8192.            (* src/lib.rs MAXIMUM_SECTOR_SIZE *)

(* chs.rs:586-590 *)
Record DiskCh := mkCh { ch_c : N; ch_h : N }.
(* chs.rs:332-336 *)
Record DiskChs := mkChs { chs_c : N; chs_h : N; chs_s : N }.
(* chs.rs:148-151 *)
Record DiskChsn := mkChsn { chsn_chs : DiskChs; chsn_n : N }.
Definition chsn_c (i : DiskChsn) := chs_c (chsn_chs i).
Definition chsn_h (i : DiskChsn) := chs_h (chsn_chs i).
Definition chsn_s (i : DiskChsn) := chs_s (chsn_chs i).
(* chs.rs:43-48 *)
Record DiskChsnQuery := mkQuery { q_c : option N; q_h : option N; q_s : N; q_n : option N }.
(* sector_layout.rs:68-76 *)
Record SectorLayout := mkLayout { l_c : N; l_h : N; l_s : N; l_s_off : N; l_size : N }.

(* chs.rs:94-115 DiskChsnQuery::matches: four early returns *)
Definition query_matches (q : DiskChsnQuery) (id : DiskChsn) : bool :=
  if negb (q_s q =? chsn_s id) then false else
  if match q_c q with Some c => negb (c =? chsn_c id) | None => false end then false else
  if match q_h q with Some h => negb (h =? chsn_h id) | None => false end then false else
  if match q_n q with Some n => negb (n =? chsn_n id) | None => false end then false else
  true.

(* chs.rs:117-126 From<DiskChsn> for DiskChsnQuery *)
Definition query_of_chsn (i : DiskChsn) : DiskChsnQuery :=
  mkQuery (Some (chsn_c i)) (Some (chsn_h i)) (chsn_s i) (Some (chsn_n i)).
(* chs.rs:128-137 From<DiskChs> for DiskChsnQuery *)
Definition query_of_chs (i : DiskChs) : DiskChsnQuery :=
  mkQuery (Some (chs_c i)) (Some (chs_h i)) (chs_s i) None.

(* usize::overflowing_shl(n as u32).0 on a 64-bit target: the shift amount is masked to 6 bits and
   the shifted-out bits are lost. *)
Definition overflowing_shl64 (x n : N) : N := (x * 2 ^ (n mod 64)) mod 2 ^ 64.
(* chs.rs:229-237 DiskChsn::n_to_bytes / n_size *)
Definition n_to_bytes (n : N) : N := N.min MAXIMUM_SECTOR_SIZE (overflowing_shl64 128 n).

(* chs.rs:241-249 DiskChsn::bytes_to_n: `while size > 128 { size >>= 1; n += 1 }`; n : u8, at most
   57 iterations for a 64-bit size, so n never overflows; fuel 64 is enough for any u64. *)
Fixpoint bytes_to_n_loop (fuel : nat) (size n : N) : N :=
  match fuel with
  | O => n
  | S f => if 128 <? size then bytes_to_n_loop f (size / 2) (n + 1) else n
  end.
Definition bytes_to_n (size : N) : N := bytes_to_n_loop 64 size 0.

(* chs.rs:455-457, sector_layout.rs:193-195 total_sectors *)
Definition total_sectors (g : SectorLayout) : N := l_c g * l_h g * l_s g.

(* chs.rs:461-464 DiskChs::contains (self is the geometry) *)
Definition chs_contains (geom o : DiskChs) : bool :=
  (chs_c o <? chs_c geom) && (chs_h o <? chs_h geom) && (chs_s o <=? chs_s geom).
(* sector_layout.rs:198-201 SectorLayout::contains *)
Definition layout_contains (g : SectorLayout) (o : DiskChs) : bool :=
  (chs_c o <? l_c g) && (chs_h o <? l_h g) && ((chs_s o - l_s_off g) <? l_s g).

(* chs.rs:469-473 DiskChs::to_lba (N.sub is saturating_sub) *)
Definition to_lba (x : DiskChs) (g : SectorLayout) : N :=
  (chs_c x * l_h g + chs_h x) * l_s g + (chs_s x - l_s_off g).

(* chs.rs:484-495 DiskChs::from_lba: division by zero panics; `as u16`/`as u8` casts *)
Definition from_lba (lba : N) (g : SectorLayout) : outcome (option DiskChs) :=
  if (l_h g * l_s g =? 0) then Panic else
  let c := lba / (l_h g * l_s g) in
  let h := (lba / l_s g) mod l_h g in
  let s := lba mod l_s g + l_s_off g in
  if (l_c g <=? c) || (l_h g <=? h) || (l_s g <? s) then Ok None
  else Ok (Some (mkChs (as_u16 c) (as_u8 h) (as_u8 s))).

(* chs.rs:506-509 DiskChs::from_raw_offset *)
Definition from_raw_offset (offset : N) (g : SectorLayout) : outcome (option (DiskChs * N)) :=
  if l_size g =? 0 then Panic else
  let! r := from_lba (offset / l_size g) g in
  Ok (match r with Some x => Some (x, offset mod l_size g) | None => None end).

(* chs.rs:519-521 DiskChs::to_raw_offset *)
Definition to_raw_offset (x : DiskChs) (g : SectorLayout) : option N :=
  if layout_contains g x then Some (to_lba x g * l_size g) else None.

(* chs.rs:530-557 DiskChs::next_sector; `geom.s() - 1 + geom.s_off` is checked u8 arithmetic *)
Definition next_sector (x : DiskChs) (g : SectorLayout) : outcome (option DiskChs) :=
  if l_s g =? 0 then Panic else
  if 255 <? l_s g - 1 + l_s_off g then Panic else
  if chs_s x <? l_s g - 1 + l_s_off g then Ok (Some (mkChs (chs_c x) (chs_h x) (chs_s x + 1)))
  else if chs_h x <? l_h g - 1 then Ok (Some (mkChs (chs_c x) (chs_h x + 1) (l_s_off g)))
  else if chs_c x <? l_c g - 1 then Ok (Some (mkChs (chs_c x + 1) 0 (l_s_off g)))
  else Ok None.

(* chs.rs:563-569 DiskChs::offset_sectors *)
Fixpoint offset_sectors (x : DiskChs) (sectors : nat) (g : SectorLayout) : outcome (option DiskChs) :=
  match sectors with
  | O => Ok (Some x)
  | S k => let! r := next_sector x g in
           match r with Some y => offset_sectors y k g | None => Ok None end
  end.

(* chs.rs:661-676 DiskCh::next_track (geom is the DiskCh of counts) *)
Definition next_track (x geom : DiskCh) : option DiskCh :=
  if ch_h x <? ch_h geom - 1 then Some (mkCh (ch_c x) (ch_h x + 1))
  else if ch_c x <? ch_c geom - 1 then Some (mkCh (ch_c x + 1) 0)
  else None.

(* chs.rs:682-691 DiskCh::next_track_unchecked; `self.c + 1` is checked u16 arithmetic *)
Definition next_track_unchecked (x : DiskCh) (heads : N) : outcome DiskCh :=
  if ch_h x <? heads - 1 then Ok (mkCh (ch_c x) (ch_h x + 1))
  else if ch_c x =? 65535 then Panic else Ok (mkCh (ch_c x + 1) 0).

(* chs.rs:701-708 DiskCh::seek_next_track: new cursor and the returned flag *)
Definition seek_next_track (x geom : DiskCh) : DiskCh * bool :=
  if (ch_c x =? ch_c geom - 1) && (ch_h geom - 1 <=? ch_h x) then (x, false)
  else (match next_track x geom with Some y => y | None => x end, true).

(* chs.rs:730-747 DiskChIterator: state = last yielded; `?` leaves the state unchanged *)
Definition ch_iter_next (geom : DiskCh) (st : option DiskCh) : option DiskCh * option DiskCh :=
  match st with
  | None => (Some (mkCh 0 0), Some (mkCh 0 0))
  | Some x => match next_track x geom with
              | Some y => (Some y, Some y)
              | None => (None, Some x)
              end
  end.
(* results of the first k calls of Iterator::next *)
Fixpoint ch_iter_calls (k : nat) (geom : DiskCh) (st : option DiskCh) : list (option DiskCh) :=
  match k with
  | O => []
  | S k' => let '(r, st') := ch_iter_next geom st in r :: ch_iter_calls k' geom st'
  end.
(* chs.rs:722-727 DiskCh::iter / sector_layout.rs:203-205 ch_iter *)
Definition ch_iter (k : nat) (geom : DiskCh) : list (option DiskCh) := ch_iter_calls k geom None.

(* chs.rs:749-766 DiskChsIterator *)
Definition chs_iter_next (g : SectorLayout) (st : option DiskChs)
  : outcome (option DiskChs * option DiskChs) :=
  match st with
  | None => let x := mkChs 0 0 (l_s_off g) in Ok (Some x, Some x)
  | Some x => let! r := next_sector x g in
              match r with Some y => Ok (Some y, Some y) | None => Ok (None, Some x) end
  end.
Fixpoint chs_iter_calls (k : nat) (g : SectorLayout) (st : option DiskChs)
  : outcome (list (option DiskChs)) :=
  match k with
  | O => Ok []
  | S k' => let! rs := chs_iter_next g st in
            let! tl := chs_iter_calls k' g (snd rs) in Ok (fst rs :: tl)
  end.
(* chs.rs:573-575, sector_layout.rs:207-209 chs_iter *)
Definition chs_iter (k : nat) (g : SectorLayout) := chs_iter_calls k g None.

(* chs.rs:768-786 DiskChsnIterator: same walk, tagged with the layout's n *)
Definition chsn_iter (k : nat) (g : SectorLayout) : outcome (list (option DiskChsn)) :=
  omap (map (option_map (fun x => mkChsn x (bytes_to_n (l_size g))))) (chs_iter k g).

(* sector_layout.rs:265-272 normal_cylinder_distance (i16::abs_diff; c < 32768 here) *)
Definition normal_cylinder_distance (c : N) : N :=
  if c <? 60 then (if c <=? 40 then 40 - c else c - 40)
  else (if c <=? 80 then 80 - c else c - 80).

(* sector_layout.rs:274-296 equivalents *)
Definition equivalents (g : SectorLayout) : list SectorLayout :=
  if (79 <=? l_c g) && (l_c g mod 2 =? 0) && (l_h g =? 1) then
    [g; mkLayout (l_c g / 2) 2 (l_s g) (l_s_off g) (l_size g)]
  else if (l_c g <=? 45) && (l_h g =? 2) then
    [g; mkLayout (l_c g * 2) 1 (l_s g) (l_s_off g) (l_size g)]
  else [g].

(* sector_layout.rs:230-252 candidate for one spt value *)
Definition derive_candidate (total sector_size spt : N) : list SectorLayout :=
  if negb (total mod spt =? 0) then [] else
  let total_tracks := total / spt in
  let heads := if total_tracks mod 2 =? 0 then 2 else 1 in
  let tracks := total_tracks / heads in
  if ((39 <=? tracks) && (tracks <=? 85)) && negb ((45 <=? tracks) && (tracks <? 79)) then
    [mkLayout (as_u16 tracks) (as_u8 heads) (as_u8 spt) 0 sector_size]
  else [].

(* slice::sort_by is a stable sort: insertion of each element after equal keys *)
Fixpoint insert_by {A} (key : A -> N) (x : A) (l : list A) : list A :=
  match l with
  | [] => [x]
  | y :: t => if key x <? key y then x :: l else y :: insert_by key x t
  end.
Definition stable_sort_by {A} (key : A -> N) (l : list A) : list A :=
  fold_left (fun acc x => insert_by key x acc) l [].

(* sector_layout.rs:215-263 derive_matches (None = Err string; a zero sector size divides by zero) *)
Definition derive_matches (size sector_size : N) : outcome (option (list SectorLayout)) :=
  if sector_size =? 0 then Panic else
  if negb (size mod sector_size =? 0) then Ok None else
  let total := size / sector_size in
  let ms := flat_map (derive_candidate total sector_size) [8;9;10;11;12;13;14;15;16;17;18] in
  match ms with
  | [] => Ok None
  | _ => Ok (Some (flat_map equivalents
                     (stable_sort_by (fun g => normal_cylinder_distance (l_c g)) ms)))
  end.
