(* The repeat counter of an IMBE stream stays in range. *)
From Coq Require Import ZArith List Bool.
From Verif Require Import Res F32 MParms MImbe SpecMachine PMachine PStream.
Local Open Scope Z_scope.

Lemma imbe_stream_range : forall o a cs st t r st' t', Forall call_ok cs -> sane_state st -> thread_ok t -> imbe_stream o a cs st t = Ok (r, st', t') ->
  0 <= p_repeatCount (prev_of st') <= 4.
Proof. intros o a cs st t r st' t' HC HS HT H. exact (sane_counts st' (proj1 (imbe_stream_counts o a cs st t r st' t' HC HS HT H))). Qed.
