(* DiskImage_spec.v - specification of the track map of a disk image: for the user an image is one list of
   tracks per head; calls append to, edit, filter or clear these lists. *)
From Coq Require Import Sorting.Sorted.
From Verif Require Import Base Chs_model Types_model Mfm_model System34_model MetaSector_model BitStream_model DiskImage_model.

(* calls of the public interface (and of the loader: normalize, remove_odd_tracks) *)
Inductive Op : Type :=
| OpAddMeta (ch : DiskCh)
| OpAddBit (ch : DiskCh) (data : list N) (weak : option (list N)) (cells : option nat) (detect : bool)
| OpAddFlux (ch : DiskCh) (decoded : outcome (list BitTrack))
| OpAddEmpty (ch : DiskCh) (res : option Resolution) (cells : nat) (clk : option bool)
| OpEdit (ch : DiskCh) (t : DTrack)          (* any use of track_mut(): the track becomes t *)
| OpWrite (ch : DiskCh) (q : DiskChsnQuery) (offset : option nat) (data : list N) (deleted debug : bool)
| OpFormat (ch : DiskCh) (ids : list DiskChsn) (pat : list N) (gap3 : nat)
| OpRemoveEmpty | OpRemoveOdd | OpRemap | OpReset | OpAnalyze
| OpMultires (b : bool) | OpSetRes (r : Resolution).

Definition report {A} (d : DiskImage) (r : DiskImage * outcome A) : option (DiskImage * bool) :=
  match r with (d', Ok _) => Some (d', true) | (d', Err _) => Some (d', false) | (_, Panic) => None end.
Definition report1 (d : DiskImage) (r : outcome DiskImage) : option (DiskImage * bool) :=
  match r with Ok d' => Some (d', true) | Err _ => Some (d, false) | Panic => None end.
(* the image after a call and whether the call succeeded; None is a panic *)
Definition call (rnd : Rnd) (op : Op) (d : DiskImage) : option (DiskImage * bool) :=
  match op with
  | OpAddMeta ch => report d (add_track_metasector d ch)
  | OpAddBit ch data weak cells detect => report d (add_track_bitstream rnd d ch data weak cells detect)
  | OpAddFlux ch dec => report d (add_track_fluxstream d ch dec)
  | OpAddEmpty ch res cells clk => report d (add_empty_track d ch res cells clk)
  | OpEdit ch t =>
      match seek_track d ch with
      | Ok (ti, t0) => if res_eqb (tk_res t) (tk_res t0) then Some (with_pool d (upd (di_pool d) ti t), true) else Some (d, false)
      | Err _ => Some (d, false)
      | Panic => None
      end
  | OpWrite ch q off data del dbg => report1 d (omap fst (di_write_sector d ch q off data DataOnly del dbg))
  | OpFormat ch ids pat gap3 => report1 d (di_format_track rnd d ch ids pat gap3)
  | OpRemoveEmpty => report1 d (remove_empty_tracks d)
  | OpRemoveOdd => Some (remove_odd_tracks d, true)
  | OpRemap => report1 d (remap_tracks d)
  | OpReset => Some (reset_image d, true)
  | OpAnalyze => report1 d (di_analyze d)
  | OpMultires b => Some (set_multires d b, true)
  | OpSetRes r => Some (set_resolution d r, true)
  end.
Fixpoint calls (rnd : Rnd) (ops : list Op) (d : DiskImage) : option (DiskImage * list bool) :=
  match ops with
  | [] => Some (d, [])
  | op :: t =>
      match call rnd op d with
      | Some (d', ok) => match calls rnd t d' with Some (d'', oks) => Some (d'', ok :: oks) | None => None end
      | None => None
      end
  end.

(* ------------------------------------------------ the specification: tracks by head and cylinder ---- *)
Definition Heads : Type := list DTrack * list DTrack.
Definition side (s : Heads) (h : N) : list DTrack := match h with 0%N => fst s | 1%N => snd s | _ => [] end.
Definition append_to (s : Heads) (h : N) (t : DTrack) : Heads :=
  match h with 0%N => (fst s ++ [t], snd s) | _ => (fst s, snd s ++ [t]) end.
Definition replace_at (s : Heads) (ch : DiskCh) (t : DTrack) : Heads :=
  match ch_h ch with 0%N => (upd (fst s) (N.to_nat (ch_c ch)) t, snd s) | _ => (fst s, upd (snd s) (N.to_nat (ch_c ch)) t) end.
Fixpoint evens {A} (l : list A) : list A :=
  match l with a :: _ :: t => a :: evens t | [a] => [a] | [] => [] end.
Definition has_sectors (t : DTrack) : bool := match tk_sector_ct t with Ok (S _) => true | _ => false end.
Fixpoint numbered_from (c : N) (l : list DTrack) : list DTrack :=
  match l with [] => [] | t :: r => tk_set_ch t (mkCh c (ch_h (tk_ch t))) :: numbered_from (c + 1) r end.
Definition blank_track (ch : DiskCh) (cells : nat) (clk : option bool) (t : DTrack) : Prop :=
  t = TMeta (mkMST ch []) \/
  exists m, mfm_new (empty_bits cells clk) None None = Ok m /\ t = TBit (mkTrack ch m meta_default true).

(* what a successful call does to the tracks *)
Inductive effect (rnd : Rnd) (s : Heads) : Op -> Heads -> Prop :=
| EffMeta ch : (ch_h ch < 2)%N -> effect rnd s (OpAddMeta ch) (append_to s (ch_h ch) (TMeta (mkMST ch [])))
| EffBit ch data weak cells detect t : (ch_h ch < 2)%N -> bt_new (rnd_bit rnd) ch data weak cells detect = Ok t ->
    effect rnd s (OpAddBit ch data weak cells detect) (append_to s (ch_h ch) (TBit t))
| EffFlux ch bs f : (ch_h ch < 2)%N -> ft_ch f = ch -> ft_decoded f = map Some bs ->
    effect rnd s (OpAddFlux ch (Ok bs)) (append_to s (ch_h ch) (TFlux f))
| EffEmpty ch res cells clk t : (ch_h ch < 2)%N -> blank_track ch cells clk t ->
    N.to_nat (ch_c ch) = length (side s (ch_h ch)) ->
    effect rnd s (OpAddEmpty ch res cells clk) (append_to s (ch_h ch) t)
| EffEdit ch t t0 : (ch_h ch < 2)%N -> nth_error (side s (ch_h ch)) (N.to_nat (ch_c ch)) = Some t0 ->
    effect rnd s (OpEdit ch t) (replace_at s ch t)
| EffWrite ch q off data del dbg t t' w : (ch_h ch < 2)%N -> nth_error (side s (ch_h ch)) (N.to_nat (ch_c ch)) = Some t ->
    tk_write_sector t q off data DataOnly del dbg = Ok (t', w) ->
    effect rnd s (OpWrite ch q off data del dbg) (replace_at s ch t')
| EffFormat ch ids pat gap3 t t' : (ch_h ch < 2)%N -> nth_error (side s (ch_h ch)) (N.to_nat (ch_c ch)) = Some t ->
    tk_format rnd t SIso ids pat gap3 = Ok t' ->
    effect rnd s (OpFormat ch ids pat gap3) (replace_at s ch t')
| EffRemoveEmpty : effect rnd s OpRemoveEmpty (filter has_sectors (fst s), filter has_sectors (snd s))
| EffRemoveOdd : effect rnd s OpRemoveOdd (evens (fst s), evens (snd s))
| EffRemap : effect rnd s OpRemap (numbered_from 0 (fst s), numbered_from 0 (snd s))
| EffReset : effect rnd s OpReset ([], [])
| EffAnalyze : effect rnd s OpAnalyze s
| EffMultires b : effect rnd s (OpMultires b) s
| EffSetRes r : effect rnd s (OpSetRes r) s.
(* a failed call has no effect on the tracks *)
Inductive effects (rnd : Rnd) : Heads -> list Op -> list bool -> Heads -> Prop :=
| EffNil s : effects rnd s [] [] s
| EffOk s op s1 ops oks s2 : effect rnd s op s1 -> effects rnd s1 ops oks s2 -> effects rnd s (op :: ops) (true :: oks) s2
| EffFail s op ops oks s2 : effects rnd s ops oks s2 -> effects rnd s (op :: ops) (false :: oks) s2.

(* what the user sees through track(): the tracks of each head by cylinder *)
Definition shows (d : DiskImage) (s : Heads) : Prop :=
  forall c h, (h < 2)%N -> di_track d (mkCh c h) = Ok (nth_error (side s h) (N.to_nat c)).
(* no dangling and no shared track *)
Definition maps_valid (d : DiskImage) : Prop :=
  NoDup (di_map0 d ++ di_map1 d) /\ forall ti, In ti (di_map0 d ++ di_map1 d) -> ti < length (di_pool d).

(* positions (cylinder, head) in the order of iteration *)
Definition pos_lt (a b : nat * nat) : Prop := fst a < fst b \/ fst a = fst b /\ snd a < snd b.
Definition all_positions (s : Heads) (ps : list (nat * nat)) : Prop :=
  StronglySorted pos_lt ps /\
  forall c h, In (c, h) ps <-> h < 2 /\ c < length (side s (N.of_nat h)).

(* ----------------------------------------------------------------- resolution lock ------------------- *)
Definition uniform (d : DiskImage) : Prop := forall t1 t2, In t1 (di_pool d) -> In t2 (di_pool d) -> tk_res t1 = tk_res t2.
(* calls allowed under the resolution lock: multires is not switched on, the resolution is not overridden *)
Definition locked_op (op : Op) : bool :=
  match op with OpMultires b => negb b | OpSetRes _ => false | _ => true end.
(* the resolution of the track a call asks for *)
Definition op_res (op : Op) : option Resolution :=
  match op with
  | OpAddMeta _ => Some RMetaSector | OpAddBit _ _ _ _ _ => Some RBitStream | OpAddFlux _ _ => Some RFluxStream
  | OpAddEmpty _ r _ _ => r | _ => None
  end.
Definition op_head (op : Op) : N :=
  match op with
  | OpAddMeta ch | OpAddBit ch _ _ _ _ | OpAddFlux ch _ | OpAddEmpty ch _ _ _ => ch_h ch | _ => 0%N
  end.
