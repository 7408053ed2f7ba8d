(* A frame whose repetition makes the amplitudes overflow. *)
From Coq Require Import ZArith Reals Lra Lia List Bool.
From Verif Require Import Res F32 TabImbe MParms SpecEcc SpecFrame SpecImbe SpecAmp SpecBound SpecLoud PFloat PReal PResid PIv PCos.
From Flocq Require Import Core.Core.
Import ListNotations.
Local Open Scope Z_scope.

(* the coefficients without the library *)
Definition deq_of (step : f32) (b : Z) (n : f32) : option f32 :=
  let k := whole_part (fsub n (flit 1 1)) in
  if sfeq (fsub n (flit 1 1)) (f_of_Z k) && (0 <=? k) && (k <=? 9) then Some (fmul step (fadd (fsub (f_of_Z b) (f_of_Z (2 ^ k))) (flit 1 2))) else None.
Lemma deq_of_eq : forall o step b n x, exact_powers o -> deq_of step b n = Some x -> dequantised o step b n = x.
Proof.
  intros o step b n x X H. unfold deq_of in H. cbv zeta in H. destruct (_ && _) eqn:E; [|discriminate]. apply andb_true_iff in E as [E E3]. apply andb_true_iff in E as [E E2]. apply Z.leb_le in E2, E3.
  apply sfeq_eq in E. unfold dequantised. rewrite E at 1. rewrite X by (split; assumption). injection H as <-. reflexivity.
Qed.
Definition known (x : option f32) : iv := match x with Some x => exactly x | None => None end.
Lemma known_in : forall o step b n, exact_powers o -> inside (dequantised o step b n) (known (deq_of step b n)).
Proof. intros o step b n X. destruct (deq_of step b n) as [x|] eqn:E; [|exact I]. rewrite (deq_of_eq _ _ _ _ _ X E). apply exactly_in. Qed.
Definition gain_iv (L : Z) (d : list Z) (m : Z) : iv :=
  if m =? 1 then exactly (entry (S754_zero false) B2 (quantiser_number L d 2 6))
  else let r := entry [] (table ba L) (m - 2) in known (deq_of (nth 1 r (S754_zero false)) (quantiser_number L d (m + 1) (entry 0 (gain_bits L) (m - 2))) (nth 0 r (S754_zero false))).
Lemma gain_in : forall o L d m, exact_powers o -> inside (imbe_gain o L d m) (gain_iv L d m).
Proof. intros o L d m X. unfold imbe_gain, gain_iv. destruct (m =? 1); [apply exactly_in|]. cbv zeta. apply known_in, X. Qed.
Definition coef_iv (L : Z) (d : list Z) (i k : Z) : iv :=
  if k =? 1 then idct_iv ci 6 (gain_iv L d) i
  else let q := higher_quantiser L i k in
       let n := entry 0 (higher_bits L) (q - 8) in
       if n =? 0 then Some (0, 0)
       else known (deq_of (fmul (entry (S754_zero false) quantstep (n - 1)) (entry (S754_zero false) standdev (k - 2))) (quantiser_number L d q n) (f_of_Z n)).
Definition resid_iv (L : Z) (d : list Z) : list iv := flat_map (fun i => map (idct_iv ci (block_size L i) (coef_iv L d i)) (upto (block_size L i))) (upto 6).

Section Accurate.
Variable o : oracle.
Hypothesis A : accurate_library o.
Let CU : cosine_in_unit o := proj1 A.
Let EX : exact_powers o := proj1 (proj2 A).
Let CC : forall x, ff x -> (Rabs (R_of x) <= 16)%R -> (Rabs (R_of (cosf o x) - cos (R_of x)) <= / 1048576)%R := proj1 (proj2 (proj2 A)).
Lemma cos_in : forall n k j, In n [4; 5; 6] -> 1 <= k <= n -> 1 <= j <= n -> inside (dct_cosine o n k j) (ci n k j).
Proof. intros n k j. apply ci_in; [exact CU|exact CC]. Qed.
Lemma coef_in : forall L d i k, 1 <= i <= 6 -> inside (imbe_coefficient o L d i k) (coef_iv L d i k).
Proof.
  intros L d i k Hi. unfold imbe_coefficient, coef_iv. destruct (k =? 1).
  - apply idct_in; [intros q Hq; apply cos_in; [cbn; auto|lia|lia]|intros q _; apply gain_in, EX].
  - cbv zeta. destruct (_ =? 0); [split; [split; reflexivity|rewrite R_zero, Rmult_0_l; lra]|]. apply known_in, EX.
Qed.
Lemma upto_bound : forall n k, In k (upto n) -> 1 <= k <= n.
Proof. intros n k K. unfold upto in K. apply in_map_iff in K as (q & <- & K). apply in_seq in K. lia. Qed.
Definition mid_sizes (L : Z) : Prop := forall i, In i (upto 6) -> In (block_size L i) [4; 5; 6].
Lemma resid_all : forall L d, mid_sizes L -> Forall2 inside (residuals o 6 (block_size L) (imbe_coefficient o L d)) (resid_iv L d).
Proof.
  intros L d SZ. unfold mid_sizes in SZ. unfold residuals, resid_iv. generalize SZ (upto_bound 6). generalize (upto 6). intros l. induction l as [|i l IH]; intros S B; cbn [flat_map]; [constructor|].
  apply Forall2_app; [|apply IH; intros q Q; [apply S|apply B]; right; exact Q].
  assert (G : forall js, (forall j, In j js -> 1 <= j <= block_size L i) ->
    Forall2 inside (map (idct o (block_size L i) (imbe_coefficient o L d i)) js) (map (idct_iv ci (block_size L i) (coef_iv L d i)) js)); [|apply G, upto_bound].
  intros js. induction js as [|j js IJ]; intros BJ; cbn [map]; constructor.
  - apply idct_in; [intros k Hk; apply cos_in; [apply S; left; reflexivity|exact Hk|apply BJ; left; reflexivity]|].
    intros k _. apply coef_in, B. left. reflexivity.
  - apply IJ. intros q Q. apply BJ. right. exact Q.
Qed.
Let L := 25.
Let d := loud_bits.
Lemma size_ok : mid_sizes L.
Proof. intros i H. cbn in H. repeat (destruct H as [<-|H]; [vm_compute; auto|]). destruct H. Qed.
(* thousandths *)
Definition T_table : list (Z * Z) :=
  [(12353, 12358); (13030, 13035); (12700, 12704); (16478, 16483); (8023, 8027); (6238, 6243); (9389, 9393); (10706, 10710); (8335, 8339); (6850, 6855); (8895, 8899); (10512, 10516);
   (6760, 6764); (6322, 6326); (7850, 7854); (9151, 9155); (6865, 6869); (6095, 6099); (7153, 7157); (8121, 8125); (5679, 7737); (5679, 7737); (5679, 7737); (5679, 7737); (5679, 7737)].
Definition covers (i : iv) (t : Z * Z) : bool := match i with Some (a, b) => (fst t * 2 ^ 30 <=? a * 1000) && (b * 1000 <=? snd t * 2 ^ 30) | None => false end.
Lemma T_covers : forallb (fun x => covers (fst x) (snd x)) (combine (resid_iv L d) T_table) = true.
Proof. vm_compute. reflexivity. Qed.
Definition T (l : Z) : R := R_of (imbe_residual o L d l).
Lemma T_in : forall l, 1 <= l <= 25 -> ff (imbe_residual o L d l) /\
  (IZR (fst (nth (Z.to_nat (l - 1)) T_table (0, 0)%Z)) / 1000 <= T l <= IZR (snd (nth (Z.to_nat (l - 1)) T_table (0, 0)%Z)) / 1000)%R.
Proof.
  intros l Hl. unfold T, imbe_residual. pose proof (resid_all L d size_ok) as F. pose proof T_covers as C. set (xs := residuals _ _ _ _) in *. set (is := resid_iv L d) in *.
  assert (K : (Z.to_nat (l - 1) < 25)%nat) by lia. assert (LT : length T_table = 25%nat) by reflexivity. assert (LI : length is = 25%nat) by (vm_compute; reflexivity).
  generalize dependent T_table. intros ts C LT. clearbody xs is. revert K. generalize (Z.to_nat (l - 1)). intros n K. rewrite <- LT in K. rewrite <- LT in LI. clear LT Hl l.
  revert ts C LI n K. induction F as [|x i xs is X F IH]; intros ts C LI n K; [destruct ts; [cbn in K; lia|discriminate]|].
  destruct ts as [|u ts]; [discriminate|]. cbn [combine forallb] in C. apply andb_true_iff in C as [C1 C2]. destruct n as [|n]; [|cbn [nth]; apply IH; [exact C2|cbn in LI; lia|cbn in K; lia]].
  cbn [nth fst snd] in *. unfold covers in C1. destruct i as [[a b]|]; [|discriminate]. apply andb_true_iff in C1 as [U V]. apply Z.leb_le in U, V. cbn [inside] in X. destruct X as [FX X].
  split; [exact FX|]. apply IZR_le in U, V. rewrite !mult_IZR in U, V. change (IZR (2 ^ 30)) with 1073741824%R in *. unfold unit30 in X. lra.
Qed.
End Accurate.
