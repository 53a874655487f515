(* MetaSector_spec.v - what the MetaSector track properties mean. *)
From Verif Require Import Base Chs_model Types_model MetaSector_model.

(* The query agrees with the id on every field it specifies. *)
Definition agrees (q : DiskChsnQuery) (id : DiskChsn) : Prop :=
  q_s q = chsn_s id /\
  (forall c, q_c q = Some c -> c = chsn_c id) /\
  (forall h, q_h q = Some h -> h = chsn_h id) /\
  (forall n, q_n q = Some n -> n = chsn_n id).
(* Sector i is the first (respectively the only) sector of the track the query agrees with. *)
Definition first_match (ids : list DiskChsn) (q : DiskChsnQuery) (i : nat) : Prop :=
  (exists id, nth_error ids i = Some id /\ agrees q id) /\
  forall j id, j < i -> nth_error ids j = Some id -> ~ agrees q id.
Definition only_match (ids : list DiskChsn) (q : DiskChsnQuery) (i : nat) : Prop :=
  (exists id, nth_error ids i = Some id /\ agrees q id) /\
  forall j id, j <> i -> nth_error ids j = Some id -> ~ agrees q id.
Definition absent (ids : list DiskChsn) (q : DiskChsnQuery) : Prop :=
  forall id, In id ids -> ~ agrees q id.

(* The mismatch flags: some id on the track differs from the query's cylinder / head, or has
   cylinder 255. *)
Definition other_cylinder (ids : list DiskChsn) (q : DiskChsnQuery) : Prop :=
  exists id c, In id ids /\ q_c q = Some c /\ chsn_c id <> c.
Definition other_head (ids : list DiskChsn) (q : DiskChsnQuery) : Prop :=
  exists id h, In id ids /\ q_h q = Some h /\ chsn_h id <> h.
Definition cylinder_ff (ids : list DiskChsn) : Prop := exists id, In id ids /\ chsn_c id = 255%N.

(* A write request: query, data, deleted flag. *)
Record wreq : Set := mkW { w_query : DiskChsnQuery; w_data : list N; w_deleted : bool }.
(* The last request of a history satisfying P. *)
Definition last_such (P : wreq -> Prop) (hist : list wreq) (w : wreq) : Prop :=
  exists pre post, hist = pre ++ w :: post /\ P w /\ Forall (fun x => ~ P x) post.

(* ---- definitions about whole tracks ---- *)
Definition ids_of (t : MetaSectorTrack) : list DiskChsn := map ms_id (mt_sectors t).
(* A sector with data, without weak bits or holes. *)
Definition clean (s : MetaSector) : Prop :=
  ms_no_dam s = false /\ Forall (eq 0%N) (mm_mask (ms_weak s)) /\ Forall (eq 0%N) (mm_mask (ms_hole s)).
(* Every sector's stored data has the size its id says. *)
Definition wf_sector (s : MetaSector) : Prop := N.of_nat (length (ms_data s)) = n_to_bytes (chsn_n (ms_id s)).
Definition wf_track (t : MetaSectorTrack) : Prop := Forall wf_sector (mt_sectors t).
(* The header is intact and a data mark exists. *)
Definition writable (s : MetaSector) : Prop := ms_no_dam s = false /\ ms_address_error s = false.

(* A write request that must take effect on sector i: sector i is the only one it names, it is
   writable, and the data has the sector's size. *)
Definition effective (t0 : MetaSectorTrack) (i : nat) (w : wreq) : Prop :=
  only_match (ids_of t0) (w_query w) i /\
  exists s, nth_error (mt_sectors t0) i = Some s /\ writable s /\ length (w_data w) = length (ms_data s).

(* Running a history of writes; a write returning an error leaves the track as it was. *)
Definition write_step (t : MetaSectorTrack) (w : wreq) : outcome MetaSectorTrack :=
  match mt_write_sector t (w_query w) (w_data w) (w_deleted w) with
  | Ok (t', _, _) => Ok t' | Err _ => Ok t | Panic => Panic
  end.
Definition run_writes (t : MetaSectorTrack) (h : list wreq) : outcome MetaSectorTrack := ofold write_step h t.

(* The sector described by the parameters of add_sector. *)
Definition sector_of (p : AddSectorParams) : MetaSector :=
  let mask o := match o with Some m => mask_from m | None => mask_empty (length (as_data p)) end in
  mkMS (as_id p) (at_address_error (as_attr p)) (at_data_error (as_attr p)) (at_deleted (as_attr p)) (at_no_dam (as_attr p))
       (as_data p) (mask (as_weak p)) (mask (as_hole p)).
