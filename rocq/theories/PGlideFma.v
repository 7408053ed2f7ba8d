(* Proofs about interpolated harmonics whose products may be fused. *)
From Coq Require Import ZArith List Bool Lia Reals Lra.
From Verif Require Import Res F32 MParms MUnvoiced MSynth MFma MGlideFma SpecAmp SpecSynth SpecTrig SpecNum SpecGlideFma
  PBase PRun PArr PFloat PFloat2 PReal PEnh3 PNyq PFftErr PNum PSpeech PFma PRate POscFma.
From Flocq Require Import Core.Core IEEE754.BinarySingleNaN.
Import ListNotations.
Local Open Scope R_scope.

(* ---- x is r up to e, and r is at most B ---- *)
Definition ap (x : f32) (r e B : R) : Prop := ff x /\ Rabs (R_of x - r) <= e /\ Rabs r <= B.
Lemma ap_x : forall x B, ff x -> Rabs (R_of x) <= B -> ap x (R_of x) 0 B.
Proof. intros x B F H. split; [exact F|]. split; [rewrite Rminus_diag_eq, Rabs_R0 by reflexivity; lra|exact H]. Qed.
Lemma ap_eq : forall x r s e B, ap x r e B -> r = s -> ap x s e B.
Proof. intros; now subst. Qed.
Lemma ap_sz : forall x r e B, ap x r e B -> Rabs (R_of x) <= B + e.
Proof. intros x r e B (_ & E & H). replace (R_of x) with ((R_of x - r) + r) by ring. eapply Rle_trans; [apply Rabs_triang|lra]. Qed.
Lemma ap_rnd : forall z v r d B, ff z -> Rabs (R_of z - v) <= u24 * Rabs v + tiny -> Rabs (v - r) <= d -> Rabs r <= B -> Rabs (R_of z - r) <= d + 6e-8 * (B + d) + 1e-40.
Proof.
  intros z v r d B F E D HB. pose proof tiny_40 as T. assert (U : 0 < u24 <= 6e-8) by (rewrite u24_val; lra).
  assert (V : Rabs v <= B + d). { replace v with ((v - r) + r) by ring. eapply Rle_trans; [apply Rabs_triang|lra]. }
  assert (K : u24 * Rabs v <= 6e-8 * (B + d)) by (apply Rmult_le_compat; try lra; apply Rabs_pos).
  replace (R_of z - r) with ((R_of z - v) + (v - r)) by ring. eapply Rle_trans; [apply Rabs_triang|lra].
Qed.
Lemma ap_add : forall x y r s e f B C e' B', ap x r e B -> ap y s f C -> B + C + (e + f) <= 1e36 -> e + f + 6e-8 * (B + C + (e + f)) + 1e-40 <= e' -> B + C <= B' -> ap (fadd x y) (r + s) e' B'.
Proof.
  intros x y r s e f B C e' B' X Y H HE HB. pose proof (ap_sz _ _ _ _ X) as SX. pose proof (ap_sz _ _ _ _ Y) as SY. destruct X as (FX & EX & BX), Y as (FY & EY & BY).
  pose proof (Rabs_triang (R_of x) (R_of y)) as W. destruct (fadd_e x y FX FY) as [F E]; [unfold huge; lra|].
  assert (S : Rabs (r + s) <= B + C) by (eapply Rle_trans; [apply Rabs_triang|lra]). split; [exact F|]. split; [|lra].
  eapply Rle_trans; [apply (ap_rnd _ _ (r + s) (e + f) (B + C) F E); [|exact S]|exact HE].
  replace (R_of x + R_of y - (r + s)) with ((R_of x - r) + (R_of y - s)) by ring. eapply Rle_trans; [apply Rabs_triang|lra].
Qed.
Lemma ap_sub : forall x y r s e f B C e' B', ap x r e B -> ap y s f C -> B + C + (e + f) <= 1e36 -> e + f + 6e-8 * (B + C + (e + f)) + 1e-40 <= e' -> B + C <= B' -> ap (fsub x y) (r - s) e' B'.
Proof.
  intros x y r s e f B C e' B' X Y H HE HB. pose proof (ap_sz _ _ _ _ X) as SX. pose proof (ap_sz _ _ _ _ Y) as SY. destruct X as (FX & EX & BX), Y as (FY & EY & BY).
  pose proof (Rabs_triang (R_of x) (- R_of y)) as W. rewrite Rabs_Ropp in W. change (R_of x + - R_of y) with (R_of x - R_of y) in W. destruct (fsub_e x y FX FY) as [F E]; [unfold huge; lra|].
  assert (S : Rabs (r - s) <= B + C) by (unfold Rminus; eapply Rle_trans; [apply Rabs_triang|rewrite Rabs_Ropp; lra]). split; [exact F|]. split; [|lra].
  eapply Rle_trans; [apply (ap_rnd _ _ (r - s) (e + f) (B + C) F E); [|exact S]|exact HE].
  replace (R_of x - R_of y - (r - s)) with ((R_of x - r) + - (R_of y - s)) by ring. eapply Rle_trans; [apply Rabs_triang|rewrite Rabs_Ropp; lra].
Qed.
(* the product of the floats, before rounding *)
Lemma ap_prod : forall x y r s e f B C, ap x r e B -> ap y s f C -> Rabs (R_of x * R_of y - r * s) <= e * (C + f) + B * f /\ Rabs (R_of x * R_of y) <= (B + e) * (C + f) /\ Rabs (r * s) <= B * C.
Proof.
  intros x y r s e f B C X Y. pose proof (ap_sz _ _ _ _ X) as SX. pose proof (ap_sz _ _ _ _ Y) as SY. destruct X as (FX & EX & BX), Y as (FY & EY & BY).
  split; [|split; [apply prod2|apply prod2]; auto]. replace (R_of x * R_of y - r * s) with ((R_of x - r) * R_of y + r * (R_of y - s)) by ring.
  pose proof (prod2 _ _ _ _ EX SY). pose proof (prod2 _ _ _ _ BX EY). eapply Rle_trans; [apply Rabs_triang|lra].
Qed.
Lemma ap_mul : forall x y r s e f B C e' B', ap x r e B -> ap y s f C -> (B + e) * (C + f) <= 1e36 -> e * (C + f) + B * f + 6e-8 * (B * C + (e * (C + f) + B * f)) + 1e-40 <= e' -> B * C <= B' -> ap (fmul x y) (r * s) e' B'.
Proof.
  intros x y r s e f B C e' B' X Y H HE HB. destruct (ap_prod _ _ _ _ _ _ _ _ X Y) as (D & P & S). destruct X as (FX & _), Y as (FY & _).
  destruct (fmul_e x y FX FY) as [F E]; [unfold huge; lra|]. split; [exact F|]. split; [|lra]. eapply Rle_trans; [apply (ap_rnd _ _ _ _ _ F E D S)|exact HE].
Qed.
Lemma ap_divc : forall x y r s e B e1 B1 e', ap x r e B -> ff y -> R_of y = s -> 0 < s -> e <= e1 * s -> B <= B1 * s -> B1 + e1 <= 1e36 -> e1 + 6e-8 * (B1 + e1) + 1e-40 <= e' -> ap (fdiv x y) (r / s) e' B1.
Proof.
  intros x y r s e B e1 B1 e' X FY EY S HE HB H HE'. pose proof (ap_sz _ _ _ _ X) as SX. destruct X as (FX & EX & BX).
  assert (G : forall a b, Rabs a <= b * s -> Rabs (a / s) <= b). { intros a b Q. unfold Rdiv. rewrite Rabs_mult, (Rabs_pos_eq (/ s)) by (left; now apply Rinv_0_lt_compat). apply (Rmult_le_reg_r s); [exact S|]. rewrite Rmult_assoc, Rinv_l, Rmult_1_r by lra. exact Q. }
  assert (Q1 : Rabs (R_of x / s) <= B1 + e1) by (apply G; lra). destruct (fdiv_e x y FX FY) as [F E]; rewrite ?EY in *; [lra|unfold huge; lra|].
  split; [exact F|]. assert (RB : Rabs (r / s) <= B1) by (apply G; lra). split; [|exact RB].
  eapply Rle_trans; [apply (ap_rnd _ _ (r / s) e1 B1 F E); [|exact RB]|exact HE']. replace (R_of x / s - r / s) with ((R_of x - r) / s) by (unfold Rdiv; ring). apply G. lra.
Qed.
Lemma ap_macc : forall k c x y t r s g e f G B C e' B', ap c t g G -> ap x r e B -> ap y s f C -> G + g <= 1e36 -> (B + e) * (C + f) <= 1e36 ->
  g + (e * (C + f) + B * f) + 6e-8 * (G + g) + 1.3e-7 * ((B + e) * (C + f)) + 1e-39 <= e' -> G + B * C <= B' -> ap (macc k c x y) (t + r * s) e' B'.
Proof.
  intros k c x y t r s g e f G B C e' B' K X Y H1 H2 HE HB. pose proof (ap_sz _ _ _ _ K) as SK. destruct (ap_prod _ _ _ _ _ _ _ _ X Y) as (D & P & S). destruct X as (FX & _), Y as (FY & _), K as (FK & EK & BK).
  destruct (macc_e k c x y _ FK FX FY P) as [F E]; [lra|lra|]. split; [exact F|]. split; [|eapply Rle_trans; [apply Rabs_triang|lra]].
  replace (R_of (macc k c x y) - (t + r * s)) with ((R_of (macc k c x y) - (R_of c + R_of x * R_of y)) + ((R_of c - t) + (R_of x * R_of y - r * s))) by ring.
  eapply Rle_trans; [apply Rabs_triang|]. pose proof (Rabs_triang (R_of c - t) (R_of x * R_of y - r * s)). lra.
Qed.
Lemma ap_opp : forall x r e B, ap x r e B -> ap (fopp x) (- r) e B.
Proof. intros x r e B (F & E & H). split; [now apply fopp_ff|]. rewrite R_fopp. split; [replace (- R_of x - - r) with (- (R_of x - r)) by ring|]; now rewrite Rabs_Ropp. Qed.
Lemma ap_int : forall z B, (0 <= z <= 16777216)%Z -> IZR z <= B -> ap (f_of_Z z) (IZR z) 0 B.
Proof. intros z B H HB. destruct (int_R z H) as [F E]. rewrite <- E. apply ap_x; [exact F|]. rewrite E, Rabs_pos_eq by (apply IZR_le; lia). exact HB. Qed.
Lemma ap_bound : forall x r e B B', ap x r e B -> Rabs r <= B' -> ap x r e B'.
Proof. intros x r e B B' (F & E & _) H. repeat split; auto; apply F. Qed.
Lemma ap_pi : ap PI_F PI 1e-7 3.15.
Proof. pose proof PI_bounds. split; [split; reflexivity|]. R_val PI_F. split; apply Rabs_le; lra. Qed.
Lemma ap_2pi : ap (fmul f_two PI_F) (2 * PI) 2e-7 6.3.
Proof. pose proof PI_bounds. change (fmul f_two PI_F) with TWO_PI_F. split; [split; reflexivity|]. R_val TWO_PI_F. split; apply Rabs_le; lra. Qed.

(* ---- the loop ---- *)
Definition turns (l : Z) (cw0 pw0 pc pp : f32) : f32 := ffloor (fdiv (fadd (fsub (fsub pc pp) (fdiv (fmul (fadd pw0 cw0) (f_of_Z (l * 160))) f_two)) PI_F) (fmul f_two PI_F)).
Definition wrapped_c (k : contraction) (l : Z) (cw0 pw0 pc pp : f32) : f32 :=
  let d := fsub (fsub pc pp) (fdiv (fmul (fadd pw0 cw0) (f_of_Z (l * 160))) f_two) in
  if k 50%Z 0%Z then ffma (fopp (fmul f_two PI_F)) (turns l cw0 pw0 pc pp) d else fsub d (fmul (fmul f_two PI_F) (turns l cw0 pw0 pc pp)).
Definition rate_c (k : contraction) (l : Z) (pw0 w : f32) : f32 :=
  if k 54%Z 0%Z then ffma pw0 (f_of_Z l) (fmul (fdiv fone (f_of_Z 160)) w) else macc (k 55%Z 0%Z) (fmul pw0 (f_of_Z l)) (fdiv fone (f_of_Z 160)) w.
Definition theta_c (k : contraction) (l : Z) (cw0 pw0 pp rate : f32) (n : Z) : f32 :=
  fadd (macc (k 51%Z n) pp rate (f_of_Z n)) (fdiv (fmul (fsub cw0 pw0) (f_of_Z (l * n * n))) (f_of_Z 320)).
Definition amp_c (k : contraction) (mc mp : f32) (n : Z) : f32 := macc (k 52%Z n) mp (fdiv (f_of_Z n) (f_of_Z 160)) (fsub mc mp).
Definition glide_c (k : contraction) (o : oracle) (l : Z) (cw0 pw0 pc pp mc mp : f32) (n : Z) (x : f32) : f32 :=
  macc (k 53%Z n) x (fmul f_two (amp_c k mc mp n)) (cosf o (theta_c k l cw0 pw0 pp (rate_c k l pw0 (wrapped_c k l cw0 pw0 pc pp)) n)).
Lemma glide_c_value : forall k o aout l cw0 pw0 pc pp mc mp, length aout = 160%nat ->
  exists r, add_interpolated_c k o aout l cw0 pw0 pc pp mc mp = Ok r /\ length r = 160%nat /\
  forall i x, (0 <= i < 160)%Z -> rd aout i = Ok x -> rd r i = Ok (glide_c k o l cw0 pw0 pc pp mc mp i x).
Proof.
  intros k o aout l cw0 pw0 pc pp mc mp L. unfold add_interpolated_c. cbv zeta.
  match goal with |- exists r, for_up _ _ ?b ?s0 = _ /\ _ =>
    destruct (update_loop (fun n x => glide_c k o l cw0 pw0 pc pp mc mp n x) b 0 160 s0) as (r & E & Lr & P & _) end; [lia|lia|lia| |].
  - intros i s x Hk Ls Hs Hx. cbv beta. rewrite Hs. cbn [bind]. reflexivity.
  - exists r. split; [exact E|]. split; [congruence|exact P].
Qed.
Lemma glide_unfused : forall o aout l cw0 pw0 pc pp mc mp, add_interpolated_c (fun _ _ => false) o aout l cw0 pw0 pc pp mc mp = add_interpolated o aout l cw0 pw0 pc pp mc mp.
Proof. reflexivity. Qed.

(* ---- the phase ---- *)
Lemma glide_ends : forall l j cw0 pw0 pc pp, glide_phase l j cw0 pw0 pc pp 0 = pp /\ glide_phase l j cw0 pw0 pc pp 160 = pc - 2 * PI * IZR j.
Proof. intros. unfold glide_phase, excess. split; field. Qed.
Section Phase.
Context (k : contraction) (l : Z) (cw0 pw0 pc pp : f32) (Hl : (1 <= l <= 7)%Z) (C : pitch_range cw0) (P : pitch_range pw0) (PC : range 16 pc) (PP : range 16 pp).
Lemma ap_cw0 : ap cw0 (R_of cw0) 0 0.4. Proof. destruct C. apply ap_x; [assumption|apply Rabs_le; lra]. Qed.
Lemma ap_pw0 : ap pw0 (R_of pw0) 0 0.4. Proof. destruct P. apply ap_x; [assumption|apply Rabs_le; lra]. Qed.
Lemma l_R : 1 <= IZR l <= 7. Proof. split; apply IZR_le; lia. Qed.
Lemma ap_l : ap (f_of_Z l) (IZR l) 0 7. Proof. apply ap_int; [lia|apply l_R]. Qed.
Lemma ap_dphi : ap (fsub (fsub pc pp) (fdiv (fmul (fadd pw0 cw0) (f_of_Z (l * 160))) f_two)) (R_of pc - R_of pp - 80 * IZR l * (R_of pw0 + R_of cw0)) 1.2e-4 480.
Proof.
  pose proof l_R as L. destruct PC as [FC BC], PP as [FP BP].
  assert (S : ap (fadd pw0 cw0) (R_of pw0 + R_of cw0) 5e-8 0.8) by (apply (ap_add _ _ _ _ _ _ _ _ _ _ ap_pw0 ap_cw0); lra).
  assert (I : ap (f_of_Z (l * 160)) (IZR (l * 160)) 0 1120) by (apply ap_int; [lia|apply IZR_le; lia]).
  assert (T : ap (fmul (fadd pw0 cw0) (f_of_Z (l * 160))) ((R_of pw0 + R_of cw0) * IZR (l * 160)) 1.1e-4 896) by (apply (ap_mul _ _ _ _ _ _ _ _ _ _ S I); lra).
  assert (E2 : R_of f_two = 2) by (change f_two with (f_of_Z 2); apply two_R).
  assert (H : ap (fdiv (fmul (fadd pw0 cw0) (f_of_Z (l * 160))) f_two) ((R_of pw0 + R_of cw0) * IZR (l * 160) / 2) 8.3e-5 448) by (apply (ap_divc _ _ _ 2 _ _ 5.5e-5 448 _ T); auto; try lra; split; reflexivity).
  assert (D : ap (fsub pc pp) (R_of pc - R_of pp) 2e-6 32) by (apply (ap_sub _ _ _ _ _ _ _ _ _ _ (ap_x _ _ FC BC) (ap_x _ _ FP BP)); lra).
  apply (ap_eq _ (R_of pc - R_of pp - (R_of pw0 + R_of cw0) * IZR (l * 160) / 2)); [apply (ap_sub _ _ _ _ _ _ _ _ _ _ D H); lra|]. rewrite mult_IZR. field.
Qed.
Lemma turns_val : exists j, ap (turns l cw0 pw0 pc pp) (IZR j) 0 79 /\ Rabs (excess l j (R_of cw0) (R_of pw0) (R_of pc) (R_of pp)) <= 3.142.
Proof.
  unfold turns, excess. set (d := fsub (fsub pc pp) _). pose proof ap_dphi as D. fold d in D. set (r := R_of pc - R_of pp - 80 * IZR l * (R_of pw0 + R_of cw0)) in *.
  assert (Y : ap (fadd d PI_F) (r + PI) 1.6e-4 484) by (apply (ap_add _ _ _ _ _ _ _ _ _ _ D ap_pi); lra). pose proof (ap_sz _ _ _ _ Y) as SY.
  destruct ap_2pi as (FT & ET & _). set (tp := fmul f_two PI_F) in *. pose proof PI_bounds as PB. assert (TB : 6.283185 <= R_of tp <= 6.283186) by (apply Rabs_le_inv in ET; lra).
  destruct Y as (FY & EY & _). set (y := fadd d PI_F) in *. set (t := R_of tp) in *.
  assert (Q : Rabs (R_of y / t) <= 77.1).
  { unfold Rdiv. rewrite Rabs_mult, (Rabs_pos_eq (/ t)) by (left; apply Rinv_0_lt_compat; lra). apply (Rmult_le_reg_r t); [lra|]. rewrite Rmult_assoc, Rinv_l by lra. lra. }
  destruct (fdiv_e y tp FY FT) as [F E]; [fold t; lra|fold t; unfold huge; lra|]. fold t in E. set (q := fdiv y tp) in *. pose proof tiny_40 as T40. assert (U : 0 < u24 <= 6e-8) by (rewrite u24_val; lra).
  assert (K : u24 * Rabs (R_of y / t) <= 6e-8 * 77.1) by (apply Rmult_le_compat; try lra; apply Rabs_pos).
  assert (E' : Rabs (R_of q - R_of y / t) <= 4.7e-6) by lra.
  assert (B : Rabs (R_of q) <= 77.2). { replace (R_of q) with ((R_of q - R_of y / t) + R_of y / t) by ring. eapply Rle_trans; [apply Rabs_triang|lra]. }
  assert (G : Rabs (R_of q * t - R_of y) <= 3e-5). { replace (R_of q * t - R_of y) with ((R_of q - R_of y / t) * t) by (field; lra). eapply Rle_trans; [apply (prod2 _ _ 4.7e-6 6.3); [exact E'|rewrite Rabs_pos_eq; lra]|lra]. }
  destruct (ffloor_R q F) as [FF FE]; [lra|]. set (j := Zfloor (R_of q)) in *. pose proof (Zfloor_lb (R_of q)) as J1. pose proof (Zfloor_ub (R_of q)) as J2. fold j in J1, J2.
  apply Rabs_le_inv in B. exists j. split.
  { rewrite <- FE. apply ap_x; [exact FF|]. rewrite FE. apply Rabs_le. lra. }
  assert (M1 : IZR j * t <= R_of q * t) by (apply Rmult_le_compat_r; lra). assert (M2 : R_of q * t <= (IZR j + 1) * t) by (apply Rmult_le_compat_r; lra).
  assert (M3 : Rabs (IZR j * (t - 2 * PI)) <= 79 * 2e-7) by (apply prod2; [apply Rabs_le; lra|exact ET]).
  apply Rabs_le_inv in M3, G, EY. apply Rabs_le. replace (IZR j * (t - 2 * PI)) with (IZR j * t - 2 * PI * IZR j) in M3 by ring. lra.
Qed.
Lemma wrapped_val : forall j, ap (turns l cw0 pw0 pc pp) (IZR j) 0 79 -> Rabs (excess l j (R_of cw0) (R_of pw0) (R_of pc) (R_of pp)) <= 3.142 ->
  ap (wrapped_c k l cw0 pw0 pc pp) (excess l j (R_of cw0) (R_of pw0) (R_of pc) (R_of pp)) 2.5e-4 3.142.
Proof.
  intros j J B. pose proof ap_dphi as D. pose proof ap_2pi as T. unfold wrapped_c, excess in *. cbv zeta. set (d := fsub (fsub pc pp) _) in *. set (r := R_of pc - R_of pp - 80 * IZR l * (R_of pw0 + R_of cw0)) in *.
  apply (ap_bound _ _ _ 980); [|exact B]. destruct (k 50%Z 0%Z).
  - apply (ap_eq _ (r + - (2 * PI) * IZR j)); [|ring]. change (ffma (fopp (fmul f_two PI_F)) (turns l cw0 pw0 pc pp) d) with (macc true d (fopp (fmul f_two PI_F)) (turns l cw0 pw0 pc pp)).
    apply (ap_macc _ _ _ _ _ _ _ _ _ _ _ _ _ _ _ D (ap_opp _ _ _ _ T) J); lra.
  - assert (M : ap (fmul (fmul f_two PI_F) (turns l cw0 pw0 pc pp)) (2 * PI * IZR j) 5e-5 498) by (apply (ap_mul _ _ _ _ _ _ _ _ _ _ T J); lra).
    apply (ap_sub _ _ _ _ _ _ _ _ _ _ D M); lra.
Qed.
Lemma rate_val : forall w x, ap w x 2.5e-4 3.142 -> ap (rate_c k l pw0 w) (R_of pw0 * IZR l + x / 160) 2.1e-6 2.82.
Proof.
  intros w x W. pose proof l_R as L. destruct (int_R 160) as [F160 E160]; [lia|].
  assert (O : ap fone 1 0 1) by (apply (ap_eq _ (R_of fone)); [apply ap_x; [split; reflexivity|R_val fone; rewrite Rabs_pos_eq; lra]|R_val fone; lra]).
  assert (I : ap (fdiv fone (f_of_Z 160)) (1 / 160) 4e-10 0.00625) by (apply (ap_divc _ _ _ 160 _ _ 0 0.00625 _ O); auto; lra).
  unfold rate_c. destruct (k 54%Z 0%Z).
  - assert (M : ap (fmul (fdiv fone (f_of_Z 160)) w) (1 / 160 * x) 1.6e-6 0.02) by (apply (ap_mul _ _ _ _ _ _ _ _ _ _ I W); lra).
    apply (ap_eq _ (1 / 160 * x + R_of pw0 * IZR l)); [|field]. change (ffma pw0 (f_of_Z l) (fmul (fdiv fone (f_of_Z 160)) w)) with (macc true (fmul (fdiv fone (f_of_Z 160)) w) pw0 (f_of_Z l)).
    apply (ap_macc _ _ _ _ _ _ _ _ _ _ _ _ _ _ _ M ap_pw0 ap_l); lra.
  - assert (M : ap (fmul pw0 (f_of_Z l)) (R_of pw0 * IZR l) 1.7e-7 2.8) by (apply (ap_mul _ _ _ _ _ _ _ _ _ _ ap_pw0 ap_l); lra).
    apply (ap_eq _ (R_of pw0 * IZR l + 1 / 160 * x)); [|field]. apply (ap_macc _ _ _ _ _ _ _ _ _ _ _ _ _ _ _ M I W); lra.
Qed.
Lemma theta_val : forall j w n, ap w (excess l j (R_of cw0) (R_of pw0) (R_of pc) (R_of pp)) 2.5e-4 3.142 -> (0 <= n < 160)%Z ->
  ap (theta_c k l cw0 pw0 pp (rate_c k l pw0 w) n) (glide_phase l j (R_of cw0) (R_of pw0) (R_of pc) (R_of pp) (IZR n)) 6e-4 910.
Proof.
  intros j w n W Hn. pose proof (rate_val _ _ W) as RV. unfold theta_c, glide_phase. set (x := excess _ _ _ _ _ _) in *. destruct PP as [FP BP]. destruct (int_R 320) as [F320 E320]; [lia|].
  assert (N : ap (f_of_Z n) (IZR n) 0 159) by (apply ap_int; [lia|apply IZR_le; lia]).
  assert (A : ap (macc (k 51%Z n) pp (rate_c k l pw0 w) (f_of_Z n)) (R_of pp + (R_of pw0 * IZR l + x / 160) * IZR n) 4e-4 465) by (apply (ap_macc _ _ _ _ _ _ _ _ _ _ _ _ _ _ _ (ap_x _ _ FP BP) RV N); lra).
  assert (LN : (0 <= l * n * n <= 176967)%Z) by nia. assert (Q : ap (f_of_Z (l * n * n)) (IZR (l * n * n)) 0 176967) by (apply ap_int; [lia|apply IZR_le; lia]).
  assert (S : ap (fsub cw0 pw0) (R_of cw0 - R_of pw0) 5e-8 0.8) by (apply (ap_sub _ _ _ _ _ _ _ _ _ _ ap_cw0 ap_pw0); lra).
  assert (M : ap (fmul (fsub cw0 pw0) (f_of_Z (l * n * n))) ((R_of cw0 - R_of pw0) * IZR (l * n * n)) 1.8e-2 141574) by (apply (ap_mul _ _ _ _ _ _ _ _ _ _ S Q); lra).
  assert (V : ap (fdiv (fmul (fsub cw0 pw0) (f_of_Z (l * n * n))) (f_of_Z 320)) ((R_of cw0 - R_of pw0) * IZR (l * n * n) / 320) 8.5e-5 443) by (apply (ap_divc _ _ _ 320 _ _ 5.7e-5 443 _ M); auto; lra).
  apply (ap_eq _ (R_of pp + (R_of pw0 * IZR l + x / 160) * IZR n + (R_of cw0 - R_of pw0) * IZR (l * n * n) / 320)); [apply (ap_add _ _ _ _ _ _ _ _ _ _ A V); lra|]. rewrite !mult_IZR. field.
Qed.
End Phase.
Lemma amp_val : forall k mc mp M n, range M mc -> range M mp -> M <= 1e30 -> (0 <= n < 160)%Z -> ap (amp_c k mc mp n) (glide_amp (R_of mc) (R_of mp) (IZR n)) (7e-7 * M + 1e-38) M.
Proof.
  intros k mc mp M n [FC BC] [FP BP] HM Hn. pose proof (Rabs_pos (R_of mc)) as M0. unfold amp_c, glide_amp. destruct (int_R 160) as [F160 E160]; [lia|].
  assert (NR : 0 <= IZR n <= 159) by (split; apply IZR_le; lia). assert (N : ap (f_of_Z n) (IZR n) 0 159) by (apply ap_int; [lia|lra]).
  assert (T : ap (fdiv (f_of_Z n) (f_of_Z 160)) (IZR n / 160) 7e-8 1) by (apply (ap_divc _ _ _ 160 _ _ 0 1 _ N); auto; lra).
  assert (D : ap (fsub mc mp) (R_of mc - R_of mp) (1.21e-7 * M + 1e-39) (2 * M)) by (apply (ap_sub _ _ _ _ _ _ _ _ _ _ (ap_x _ _ FC BC) (ap_x _ _ FP BP)); lra).
  apply (ap_bound _ _ _ (3 * M)); [apply (ap_macc _ _ _ _ _ _ _ _ _ _ _ _ _ _ _ (ap_x _ _ FP BP) T D); lra|].
  set (t := IZR n / 160). assert (Ht : 0 <= t <= 1) by (unfold t; lra). replace (R_of mp + t * (R_of mc - R_of mp)) with ((1 - t) * R_of mp + t * R_of mc) by ring.
  eapply Rle_trans; [apply Rabs_triang|]. rewrite !Rabs_mult, (Rabs_pos_eq t), (Rabs_pos_eq (1 - t)) by lra.
  assert (A1 : (1 - t) * Rabs (R_of mp) <= (1 - t) * M) by (apply Rmult_le_compat_l; lra). assert (A2 : t * Rabs (R_of mc) <= t * M) by (apply Rmult_le_compat_l; lra). lra.
Qed.
Lemma glide_c_with : forall o l cw0 pw0 pc pp mc mp M j, (1 <= l <= 7)%Z -> accurate_angles o -> pitch_range cw0 -> pitch_range pw0 -> range 16 pc -> range 16 pp ->
  range M mc -> range M mp -> M <= 1e30 -> ap (turns l cw0 pw0 pc pp) (IZR j) 0 79 -> Rabs (excess l j (R_of cw0) (R_of pw0) (R_of pc) (R_of pp)) <= 3.142 ->
  forall k aout, length aout = 160%nat -> Forall (range 1e30) aout -> exists r, add_interpolated_c k o aout l cw0 pw0 pc pp mc mp = Ok r /\ length r = 160%nat /\
  forall n x, (0 <= n < 160)%Z -> rd aout n = Ok x -> exists y, rd r n = Ok y /\ ff y /\
    Rabs (R_of y - (R_of x + 2 * glide_amp (R_of mc) (R_of mp) (IZR n) * cos (glide_phase l j (R_of cw0) (R_of pw0) (R_of pc) (R_of pp) (IZR n)))) <= Rabs (R_of x) * 1e-7 + M * 1.3e-3 + 1e-36.
Proof.
  intros o l cw0 pw0 pc pp mc mp M j Hl A C P PC PP MC MP HM J B k aout L HX. destruct (glide_c_value k o aout l cw0 pw0 pc pp mc mp L) as (r & E & Lr & V). exists r. split; [exact E|]. split; [exact Lr|].
  intros n x Hn Hx. eexists. split; [exact (V n x Hn Hx)|]. apply rd_inv in Hx as [_ Hx]. apply nth_error_In in Hx. rewrite Forall_forall in HX. destruct (HX x Hx) as [FX BX].
  pose proof (theta_val k l cw0 pw0 pc pp Hl C P PP j _ n (wrapped_val k l cw0 pw0 pc pp Hl C P PC PP j J B) Hn) as T.
  pose proof (amp_val k mc mp M n MC MP HM Hn) as AV. unfold glide_c. set (theta := theta_c _ _ _ _ _ _ _) in *. set (g := glide_phase _ _ _ _ _ _ _) in *. set (a := glide_amp _ _ _) in *.
  assert (M0 : 0 <= M) by (destruct MC as [_ Q]; pose proof (Rabs_pos (R_of mc)); lra). pose proof (Rabs_pos (R_of x)) as X0.
  pose proof (ap_sz _ _ _ _ T) as ST. destruct T as (FT & ET & _). destruct (A theta FT ltac:(lra)) as (FC & _ & EC & _).
  assert (CV : ap (cosf o theta) (cos g) 6.1e-4 1).
  { split; [exact FC|]. split; [|apply Rabs_le; apply COS_bound]. pose proof (cos_lip (R_of theta) g). replace (R_of (cosf o theta) - cos g) with ((R_of (cosf o theta) - cos (R_of theta)) + (cos (R_of theta) - cos g)) by ring.
    eapply Rle_trans; [apply Rabs_triang|lra]. }
  assert (TW : ap f_two 2 0 2) by (split; [split; reflexivity|]; replace (R_of f_two) with 2 by (symmetry; change f_two with (f_of_Z 2); apply two_R); split; [rewrite Rminus_diag_eq, Rabs_R0 by reflexivity; lra|rewrite Rabs_pos_eq; lra]).
  assert (D : ap (fmul f_two (amp_c k mc mp n)) (2 * a) (1.6e-6 * M + 3e-38) (2 * M)) by (apply (ap_mul _ _ _ _ _ _ _ _ _ _ TW AV); lra).
  destruct (ap_macc (k 53%Z n) x _ _ _ _ _ _ _ _ (Rabs (R_of x)) _ _ (Rabs (R_of x) * 1e-7 + M * 1.3e-3 + 1e-36) (Rabs (R_of x) + 2 * M) (ap_x _ _ FX (Rle_refl _)) D CV) as (F & Q & _); try lra. split; [exact F|exact Q].
Qed.
Lemma glide_c_adds : forall o l cw0 pw0 pc pp mc mp M, (1 <= l <= 7)%Z -> accurate_angles o -> pitch_range cw0 -> pitch_range pw0 -> range 16 pc -> range 16 pp ->
  range M mc -> range M mp -> M <= 1e30 -> exists j, Rabs (excess l j (R_of cw0) (R_of pw0) (R_of pc) (R_of pp)) <= 3.142 /\
  forall k aout, length aout = 160%nat -> Forall (range 1e30) aout -> exists r, add_interpolated_c k o aout l cw0 pw0 pc pp mc mp = Ok r /\ length r = 160%nat /\
  forall n x, (0 <= n < 160)%Z -> rd aout n = Ok x -> exists y, rd r n = Ok y /\ ff y /\
    Rabs (R_of y - (R_of x + 2 * glide_amp (R_of mc) (R_of mp) (IZR n) * cos (glide_phase l j (R_of cw0) (R_of pw0) (R_of pc) (R_of pp) (IZR n)))) <= Rabs (R_of x) * 1e-7 + M * 1.3e-3 + 1e-36.
Proof.
  intros o l cw0 pw0 pc pp mc mp M Hl A C P PC PP MC MP HM. destruct (turns_val l cw0 pw0 pc pp Hl C P PC PP) as (j & J & B). exists j. split; [exact B|].
  now apply (glide_c_with o l cw0 pw0 pc pp mc mp M j).
Qed.
Lemma glide_c_close : forall k k' o l cw0 pw0 pc pp mc mp M aout, (1 <= l <= 7)%Z -> accurate_angles o -> pitch_range cw0 -> pitch_range pw0 -> range 16 pc -> range 16 pp ->
  range M mc -> range M mp -> M <= 1e30 -> length aout = 160%nat -> Forall (range 1e30) aout ->
  exists r r', add_interpolated_c k o aout l cw0 pw0 pc pp mc mp = Ok r /\ add_interpolated_c k' o aout l cw0 pw0 pc pp mc mp = Ok r' /\
  forall n x, (0 <= n < 160)%Z -> rd aout n = Ok x -> exists y y', rd r n = Ok y /\ rd r' n = Ok y' /\ ff y /\ ff y' /\
    Rabs (R_of y - R_of y') <= Rabs (R_of x) * 2e-7 + M * 2.6e-3 + 2e-36.
Proof.
  intros k k' o l cw0 pw0 pc pp mc mp M aout Hl A C P PC PP MC MP HM L HX. destruct (glide_c_adds o l cw0 pw0 pc pp mc mp M Hl A C P PC PP MC MP HM) as (j & _ & H).
  destruct (H k aout L HX) as (r & E & _ & V). destruct (H k' aout L HX) as (r' & E' & _ & V'). exists r, r'. split; [exact E|]. split; [exact E'|].
  intros n x Hn Hx. destruct (V n x Hn Hx) as (y & Y & F & D). destruct (V' n x Hn Hx) as (y' & Y' & F' & D'). exists y, y'. do 4 (split; [assumption|]).
  set (z := R_of x + 2 * _ * cos _) in *. replace (R_of y - R_of y') with ((R_of y - z) + - (R_of y' - z)) by ring. eapply Rle_trans; [apply Rabs_triang|]. rewrite Rabs_Ropp. lra.
Qed.
(* harmonic 3 at a pitch of 1/8, phases 2 and 1, amplitudes 200 and 100: ten turns are added, and half way the phase is 1.5 and the amplitude 150 *)
Lemma glide_example : forall o k, accurate_angles o -> exists r y, add_interpolated_c k o (repeat fone 160) 3 (flit 1 8) (flit 1 8) (f_of_Z 1) (f_of_Z 2) (f_of_Z 100) (f_of_Z 200) = Ok r /\
  rd r 80 = Ok y /\ ff y /\ Rabs (R_of y - (1 + 300 * cos 1.5)) <= 0.261.
Proof.
  intros o k A. assert (E8 : R_of (flit 1 8) = / 8) by (R_val (flit 1 8); lra). assert (E1 : R_of (f_of_Z 1) = 1) by (R_val (f_of_Z 1); lra). assert (E2 : R_of (f_of_Z 2) = 2) by apply two_R.
  assert (EA : R_of (f_of_Z 100) = 100) by (R_val (f_of_Z 100); lra). assert (EB : R_of (f_of_Z 200) = 200) by (R_val (f_of_Z 200); lra). assert (EO : R_of fone = 1) by (R_val fone; lra).
  assert (P8 : pitch_range (flit 1 8)) by (split; [split; reflexivity|lra]).
  destruct (glide_c_adds o 3 (flit 1 8) (flit 1 8) (f_of_Z 1) (f_of_Z 2) (f_of_Z 100) (f_of_Z 200) 200) as (j & J & H); auto; try lia; try lra; try (split; [split; reflexivity|rewrite Rabs_pos_eq; lra]).
  destruct (H k (repeat fone 160)) as (r & E & _ & V); [reflexivity|apply Forall_forall; intros x Hx; apply repeat_spec in Hx; subst x; split; [split; reflexivity|rewrite Rabs_pos_eq; lra]|].
  destruct (V 80%Z fone) as (y & Y & F & D); [lia|reflexivity|]. exists r, y. split; [exact E|]. split; [exact Y|]. split; [exact F|].
  rewrite E8, E1, E2, EA, EB, EO in *. unfold excess in J. pose proof PI_bounds as PB.
  assert (K : j = (-10)%Z). { apply Rabs_le_inv in J. assert (A1 : IZR j < -9) by (apply Rnot_le_lt; intro Q; assert (PI * (-9) <= PI * IZR j) by (apply Rmult_le_compat_l; lra); lra). assert (A2 : -11 < IZR j) by (apply Rnot_le_lt; intro Q; assert (PI * IZR j <= PI * (-11)) by (apply Rmult_le_compat_l; lra); lra). apply lt_IZR in A1, A2. lia. }
  subst j. assert (G : glide_phase 3 (-10) (/ 8) (/ 8) 1 2 80 = 1.5 + 2 * INR 5 * PI) by (rewrite INR_IZR_INZ; change (Z.of_nat 5) with 5%Z; unfold glide_phase, excess; lra).
  rewrite G, cos_period in D. replace (glide_amp 100 200 80) with 150 in D by (unfold glide_amp; field). rewrite (Rabs_pos_eq 1) in D by lra. replace (2 * 150) with 300 in D by ring. lra.
Qed.
