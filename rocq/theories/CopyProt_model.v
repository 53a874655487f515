(* CopyProt_model.v - src/copy_protection.rs: DiskImage::detect_copy_protection.  No proofs here; Display is dropped. *)
From Verif Require Import Base Chs_model Types_model MetaSector_model BitStream_model DiskImage_model.

(* 35-44 *)
Inductive Scheme : Set := FormasterCopyLock (v : N) | SoftguardSuperlok (v : N) | EaInterlock (v : N) | VaultProlok | XemagXelok (v : N) | HlsDuplication | Undetermined.
(* track/mod.rs Track::scan_sector without an offset: metasector.rs 393-429, bitstream.rs 386-396, fluxstream.rs 277-282 *)
Definition tk_scan (t : DTrack) (q : DiskChsnQuery) : outcome ScanSectorResult :=
  match t with
  | TMeta t => mt_scan_sector t q
  | TBit t => bt_scan_sector t q None
  | TFlux f => on_flux f (Err ResolveError) (fun b => bt_scan_sector b q None)
  end.
(* `if let Ok(r) = scan`: an error counts as nothing found *)
Definition if_ok {A} (x : outcome A) : outcome (option A) := match x with Ok a => Ok (Some a) | Err _ => Ok None | Panic => Panic end.
(* 64-94: one turn of the loop *)
Definition detect_track (t : DTrack) : outcome (option Scheme) :=
  let c := ch_c (tk_ch t) in let h := ch_h (tk_ch t) in
  let! r := if_ok (tk_scan t (mkQuery (Some c) (Some h) 1 (Some 1%N))) in
  match r with
  | Some (mkScan _ _ _ ae true _ _ _) => Ok (Some (if ae then FormasterCopyLock 2 else FormasterCopyLock 1))
  | _ =>
      let! r := if (1 <? c)%N then if_ok (tk_scan t (mkQuery (Some c) (Some h) 1 (Some 6%N))) else Ok None in
      match r with
      | Some (mkScan _ _ _ _ true _ _ _) => Ok (Some (SoftguardSuperlok 1))
      | _ => let! n := tk_sector_ct t in Ok (if n =? 96 then Some (EaInterlock 1) else None)
      end
  end.
Fixpoint detect_loop (l : list DTrack) : outcome (option Scheme) :=
  match l with
  | [] => Ok None
  | t :: r => let! s := detect_track t in match s with Some v => Ok (Some v) | None => detect_loop r end
  end.
(* 62-98 *)
Definition detect_copy_protection (d : DiskImage) : outcome (option Scheme) := detect_loop (track_iter d).
