(* Specification of the IMBE parameter layout, independent of the decoder model: the bit allocation tables say how many
   bits each quantiser has, the scan order table says which payload bit is which quantiser bit. *)
From Coq Require Import ZArith List Bool Permutation.
From Verif Require Import Res F32 TabImbe MParms SpecEcc SpecFrame.
Import ListNotations.
Local Open Scope Z_scope.

(* a quantiser bit: (quantiser number, bit number, 0 least significant) *)
Definition qbit : Type := Z * Z.
Definition field_bits (q n : Z) : list qbit := map (fun k => (q, Z.of_nat k)) (seq 0 (Z.to_nat n)).

(* number of voicing bits for L harmonics *)
Definition voicing_bits (L : Z) : Z := if L <? 37 then (L + 2) / 3 else 12.
(* bits of the five gain quantisers 3..7 *)
Definition gain_bits (L : Z) : list Z :=
  map (fun r => match sf_trunc (nth 0 r fzero) with Some n => n | None => 0 end) (nth (Z.to_nat (L - 9)) ba []).
(* bits of the L - 6 higher order quantisers 8..L+1 *)
Definition higher_bits (L : Z) : list Z := firstn (Z.to_nat (L - 6)) (nth (Z.to_nat (L - 9)) hoba []).

Fixpoint number_from (q : Z) (ns : list Z) : list (Z * Z) :=
  match ns with [] => [] | n :: t => (q, n) :: number_from (q + 1) t end.
(* all quantisers with their sizes: 1 voicing, 2 overall gain, 3..7 gain shape, 8.. higher order *)
Definition quantisers (L : Z) : list (Z * Z) :=
  (1, voicing_bits L) :: (2, 6) :: number_from 3 (gain_bits L ++ higher_bits L).
Definition quantiser_bits (L : Z) : list qbit := flat_map (fun '(q, n) => field_bits q n) (quantisers L).

(* the quantiser bit carried by payload bit 6 + i *)
Definition scan (L : Z) : list qbit := map (fun r => (nth 0 r 0, nth 1 r 0)) (nth (Z.to_nat (L - 9)) bo []).

(* the payload bits of a frame: 6..84 *)
Definition payload (d : list Z) : list Z := slice 6 79 d.

(* the voicing decision of harmonic l: bands of three harmonics, the last band takes the rest; the first band is the
   most significant voicing bit *)
Definition voicing_band (L l : Z) : Z := Z.max 0 (voicing_bits L - 1 - (l - 1) / 3).

(* the payload bit that carries quantiser bit c, and the value of quantiser q of n bits *)
Fixpoint lookup_bit (c : qbit) (s : list qbit) (p : list Z) : option Z :=
  match s, p with
  | x :: s, b :: p => if (fst x =? fst c) && (snd x =? snd c) then Some b else lookup_bit c s p
  | _, _ => None
  end.
Definition payload_bit (L : Z) (d : list Z) (c : qbit) : Z :=
  match lookup_bit c (scan L) (payload d) with Some b => b | None => 0 end.
Definition quantiser_number (L : Z) (d : list Z) (q n : Z) : Z := val (map (payload_bit L d) (field_bits q n)).

(* an array of band values of a frame with n bands, extended to m bands by repeating the last one *)
Definition extended (n m : Z) (a a' : list f32) : Prop :=
  length a' = length a /\ (forall l, l <= n \/ m < l -> rd a' l = rd a l) /\ (forall l, n < l <= m -> rd a' l = rd a n).
Definition same_outside {A} (n : Z) (a a' : list A) : Prop :=
  length a' = length a /\ forall l, l < 1 \/ n < l -> rd a' l = rd a l.
(* what decoding an accepted frame does to the current parameters cur and the previous parameters prev *)
Definition imbe_accepted (d : list Z) (cur prev cur' prev' : parms) : Prop :=
  let L := imbe_harmonics (pitch7200 d) in
  p_L cur' = L /\ p_K cur' = imbe_bands (pitch7200 d) /\ p_repeat cur' = p_repeat prev
  /\ (forall l, 1 <= l <= L -> rd (p_Vl cur') l = Ok (payload_bit L d (1, voicing_band L l)))
  /\ same_outside L (p_Vl cur) (p_Vl cur') /\ same_outside L (p_Ml cur) (p_Ml cur') /\ same_outside L (p_log2Ml cur) (p_log2Ml cur')
  /\ cur' = set_log2Ml (p_log2Ml cur') (set_Ml (p_Ml cur') (set_Vl (p_Vl cur') (set_K (p_K cur') (set_L (p_L cur')
              (set_w0 (p_w0 cur') (set_repeat (p_repeat cur') cur))))))
  /\ extended (p_L prev) L (p_Ml prev) (p_Ml prev') /\ extended (p_L prev) L (p_log2Ml prev) (p_log2Ml prev')
  /\ prev' = set_log2Ml (p_log2Ml prev') (set_Ml (p_Ml prev') prev).

(* a previous frame from which a frame of L harmonics can be predicted without reading beyond its 57 band values *)
Definition usable_history (L : Z) (prev : parms) : Prop :=
  wf_parms prev /\ (0 <= p_L prev <= 55 \/ p_L prev = 56 /\ (L = 23 \/ L = 46)).
