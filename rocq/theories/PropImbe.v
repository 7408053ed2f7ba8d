(* C17, C18, C19: IMBE parameter decoding. *)
From Coq Require Import ZArith List Bool Permutation.
From Verif Require Import Res F32 MFrame MParms MImbe SpecEcc SpecFrame SpecState SpecImbe PImbe.
Import ListNotations.
Local Open Scope Z_scope.

(* pitch code 5, alternating payload *)
Definition sample_payload : list Z := [0; 0; 0; 0; 0; 1] ++ concat (repeat [1; 0; 0; 1] 19) ++ [1; 1; 0; 0; 1; 0].
Definition with_pitch (b0 : Z) (d : list Z) : list Z :=
  map (fun k => if Z.testbit b0 (7 - Z.of_nat k) then 1 else 0) (seq 0 6) ++ skipn 6 (firstn 85 d)
  ++ map (fun k => if Z.testbit b0 (1 - Z.of_nat k) then 1 else 0) (seq 0 2) ++ skipn 87 d.
Definition summary (r : res (Z * parms * parms)) : res (Z * Z * Z * list Z) :=
  match r with Ok (bad, m, _) => Ok (bad, p_L m, p_K m, firstn 13 (p_Vl m)) | UB w => UB w end.

(* C17: the 48 rejected pitch codes *)
Theorem C17_rejected : forall o d cur prev, is_bits 88 d -> 207 < pitch7200 d ->
  mbe_decodeImbe4400Parms o d cur prev = Ok (1, set_repeat (p_repeat prev) cur, prev).
Proof. exact imbe_decode_bad. Qed.
Print Assumptions C17_rejected.
(* C17: the 208 accepted ones *)
Theorem C17_accepted : forall o d cur prev bad cur' prev', is_bits 88 d -> pitch7200 d <= 207 -> length (p_Vl cur) = 57%nat ->
  mbe_decodeImbe4400Parms o d cur prev = Ok (bad, cur', prev') -> bad = 0 /\ imbe_accepted d cur prev cur' prev'.
Proof. exact imbe_decode_accepted. Qed.
Print Assumptions C17_accepted.
Theorem C17_size : forall o d cur prev bad cur' prev', is_bits 88 d -> pitch7200 d <= 207 -> length (p_Vl cur) = 57%nat ->
  mbe_decodeImbe4400Parms o d cur prev = Ok (bad, cur', prev') -> 9 <= p_L cur' <= 56.
Proof. exact accepted_size. Qed.
Print Assumptions C17_size.
Example C17_case : is_bits 88 sample_payload /\ pitch7200 sample_payload = 5 /\
  summary (mbe_decodeImbe4400Parms zero_oracle sample_payload imbe_initial imbe_initial) = Ok (0, 10, 4, [0; 0; 0; 0; 1; 1; 1; 1; 1; 1; 0; 0; 0])
  /\ pitch7200 (with_pitch 208 sample_payload) = 208
  /\ summary (mbe_decodeImbe4400Parms zero_oracle (with_pitch 208 sample_payload) imbe_initial imbe_initial) = Ok (1, 39, 12, repeat 0 13).
Proof. split; [split; [reflexivity|repeat (constructor; [first [left; reflexivity|right; reflexivity]|]); constructor]|]. vm_compute. repeat split; reflexivity. Qed.

(* C18: the 79 payload bits are exactly the quantiser bits *)
Theorem C18_permutation : forall L, 9 <= L <= 56 -> Permutation (scan L) (quantiser_bits L) /\ length (scan L) = 79%nat.
Proof. exact scan_perm. Qed.
Print Assumptions C18_permutation.
(* C18: every quantiser with at least one bit is read as the number its payload bits form *)
Theorem C18_fields : forall L d, 9 <= L <= 56 -> is_bits 88 d -> exists bb, imbe_bb d (L - 9) = Ok bb /\
  forall q n, In (q, n) (quantisers L) -> 1 <= n <= 12 -> bb_field bb q n = Ok (quantiser_number L d q n) /\ 0 <= quantiser_number L d q n < 2 ^ n.
Proof. exact payload_fields. Qed.
Print Assumptions C18_fields.
Theorem C18_sizes : forall L q n, 9 <= L <= 56 -> In (q, n) (quantisers L) -> 0 <= n <= 12.
Proof. exact quantiser_sizes. Qed.
Print Assumptions C18_sizes.
(* C18: decoding an accepted frame reads no uninitialised or out-of-range cell, unless the previous frame has 56 harmonics *)
Theorem C18_defined : forall o d cur prev, is_bits 88 d -> wf_parms cur -> pitch7200 d <= 207 -> usable_history (imbe_harmonics (pitch7200 d)) prev ->
  exists bad cur' prev', mbe_decodeImbe4400Parms o d cur prev = Ok (bad, cur', prev').
Proof. exact imbe_decode_defined. Qed.
Print Assumptions C18_defined.
Example C18_case : firstn 8 (quantisers 10) = [(1, 4); (2, 6); (3, 9); (4, 9); (5, 8); (6, 8); (7, 8); (8, 9)]
  /\ map (fun '(q, n) => quantiser_number 10 sample_payload q n) (firstn 4 (quantisers 10)) = [6; 34; 382; 436].
Proof. vm_compute. repeat split; reflexivity. Qed.

(* C19 is false: after a frame of 56 harmonics the next accepted frame reads log2Ml[57], for every number of harmonics but 23 and 46 *)
Theorem C19_out_of_range : forall o d cur prev, is_bits 88 d -> length (p_Vl cur) = 57%nat -> wf_parms prev -> pitch7200 d <= 207 -> p_L prev = 56 ->
  imbe_harmonics (pitch7200 d) <> 23 -> imbe_harmonics (pitch7200 d) <> 46 -> mbe_decodeImbe4400Parms o d cur prev = UB OOB.
Proof. exact imbe_decode_outside. Qed.
Print Assumptions C19_out_of_range.
