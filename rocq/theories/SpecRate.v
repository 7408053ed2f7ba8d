(* Specification of the error rate filter and the decisions taken on it, with real numbers.  Of the model only the types are used. *)
From Coq Require Import ZArith List Bool Reals.
From Verif Require Import F32 MParms MRate SpecEcc SpecFrame SpecState SpecMachine PFloat.
Import ListNotations.
Local Open Scope R_scope.

(* Algorithm 55/56: the rate after a frame with n errors; q is 0.000365 for IMBE and 0.001064 for AMBE *)
Definition real_rate (q r : R) (n : Z) : R := 0.95 * r + q * IZR n.
Definition real_rates (q : R) (ns : list Z) (r : R) : R := fold_left (real_rate q) ns r.
(* Algorithm 111: the local energy after a frame of energy m *)
Definition real_energy (r m : R) : R := Rmax 10000 (0.95 * r + 0.05 * m).
Definition real_energies (ms : list R) (r : R) : R := fold_left real_energy ms r.

(* what the IMBE decisions look at: is the pitch code invalid, the errors of the frame, and those of the first word if known *)
Record event := mkevent { e_bad : bool; e_errors : Z; e_c0 : option Z }.
(* must the frame be repeated, at rate r? *)
Definition must_repeat (e : event) (r : R) : Prop :=
  e_bad e = true \/ match e_c0 e with Some c => (2 <= c)%Z /\ 10 + 40 * r <= IZR (e_errors e) | None => (5 < e_errors e)%Z end.
(* the decisions with exact arithmetic, from rate r and after q repeated frames: (repeated, muted) for each frame.  A stream is clear if
   no rate is within 2e-6 of the muting threshold and no error count within 1e-4 of the repeat threshold *)
Inductive decided : R -> Z -> list event -> list (bool * bool) -> Prop :=
| decided_nil : forall r q, decided r q [] []
| decided_cons : forall r q e es rep mut fl r1 r' q',
    r1 = real_rate 0.000365 r (e_errors e) ->
    (e_c0 e <> None -> 0.0001 < Rabs (10 + 40 * r1 - IZR (e_errors e))) ->
    (rep = true <-> must_repeat e r1) ->
    (r', q') = (if rep then if (q <? 4)%Z then (r, q + 1)%Z else (r1, 0%Z) else (r1, 0%Z)) ->
    0.000002 < Rabs (r' - 0.0875) ->
    (mut = true <-> (4 <= q')%Z \/ 0.0875 < r') ->
    decided r' q' es fl -> decided r q (e :: es) ((rep, mut) :: fl).

(* a frame as the decoder gets it: 88 parameter bits, a count the error correction can give, and any well-formed current set *)
Definition frame_ok (f : frame_c) : Prop := is_bits 88 (fc_bits f) /\ (0 <= fc_errors f <= 15)%Z /\ wf_parms (fc_cur f).
(* pitch codes above 207 are invalid *)
Definition event_of (f : frame_c) : event := mkevent (207 <? pitch7200 (fc_bits f))%Z (fc_errors f) (context (fc_c0 f) (fc_valid f)).
(* the energy of a frame, at most M *)
Definition loud (M : R) (m : f32) : Prop := ff m /\ 0 <= R_of m <= M.
