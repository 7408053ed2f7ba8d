(* The vector code of the FFT: its passes do to the lanes what the passes of the scalar code do to the blocks. *)
From Coq Require Import ZArith List Bool Lia.
From Verif Require Import Res F32 MParms MFft MFftSimd PFftSym PFftRun.
Import ListNotations.
Local Open Scope Z_scope.

Definition cells_n {B} (n : nat) (g : Z -> B) : buf B := map (fun p => Some (g p)) (zs n).
Lemma as_fun : forall {B} (n : nat) (x : buf B), length x = n -> x = map (fun p => nth (Z.to_nat p) x None) (zs n).
Proof.
  intros B n x <-. unfold zs. rewrite map_map. apply nth_ext with (d := None) (d' := None); [now rewrite map_length, seq_length|]. intros i Hi.
  erewrite (nth_indep (map _ _)) by (rewrite map_length, seq_length; exact Hi). rewrite (map_nth (fun p => nth (Z.to_nat (Z.of_nat p)) x None) (seq 0 (length x)) 0%nat). rewrite seq_nth by exact Hi. now rewrite Nat2Z.id.
Qed.

Section Simd.
Context {B : Type} (sa : sarith B).
Let br := s_ar sa.
Let va := varith br.
(* lane j of vector i among the 256 cells of the scalar code, when the blocks have m cells *)
Definition lane_pos (m i j : Z) : Z := m * (j + 4 * (i / m)) + i mod m.
Definition vcell (m : Z) (c : Z -> B) (i : Z) : v4 B := mkv (c (lane_pos m i 0)) (c (lane_pos m i 1)) (c (lane_pos m i 2)) (c (lane_pos m i 3)).
Definition vcells (m : Z) (c : Z -> B) : buf (v4 B) := cells_n 64 (vcell m c).
(* the twiddle factors of 64 points: cell i is that of bin q of sequence j, in blocks for l = 1 and l = 4 *)
Definition wa64 (tc ts : Z -> Z -> Z -> B) : buf B := map (fun i =>
  if i <? 48 then (if i mod 16 <? 14 then Some ((if i mod 2 =? 0 then tc else ts) 1 (i / 16 + 1) (i mod 16 / 2 + 1)) else None)
  else if i <? 60 then (if i mod 4 <? 2 then Some ((if i mod 2 =? 0 then tc else ts) 4 ((i - 48) / 4 + 1) 1) else None)
  else None) (zs 64).
Definition tw (f : arith B -> B -> B) (n l j q : Z) : B := f br (a_mul br (a_int br q) (a_mul br (a_int br (j * l)) (a_argh br n))).
Definition ifac64 : list (option Z) := [Some 64; Some 3; Some 4; Some 4; Some 4] ++ repeat None 20.
Lemma rffti1_64 : rffti1 br 64 (fresh 64) (fresh 25) = Ok (wa64 (tw a_cos 64) (tw a_sin 64), ifac64).
Proof. vm_compute. reflexivity. Qed.
Definition ec (j q : Z) : B := a_cos br (s_arg sa j q 256).
Definition es (j q : Z) : B := a_sin br (s_arg sa j q 256).
Definition etab : buf B := map (fun i => let v := i / 4 in Some ((if v mod 2 =? 0 then ec else es) (v mod 6 / 2 + 1) (4 * (v / 6) + i mod 4))) (zs 192).
Lemma fill_e_256 : fill_e sa 256 32 (fresh 192) = Ok etab.
Proof. vm_compute. reflexivity. Qed.
Lemma vsetup_run : new_vsetup sa 256 = Ok (Some (mkvsetup 256 32 ifac64 (wa64 (tw a_cos 64) (tw a_sin 64)) etab)).
Proof.
  unfold new_vsetup. change (256 / 2 / 4) with 32. change (256 / 4) with 64. change (6 * 32) with 192. change (2 * 32) with 64. cbv zeta. rewrite fill_e_256. cbn [bind]. fold br. rewrite rffti1_64. reflexivity.
Qed.

(* ---- passes ---- *)
Definition vwa (tc ts : Z -> Z -> Z -> B) : buf (v4 B) := map (option_map splat) (wa64 tc ts).
(* the twiddle factors of the scalar code *)
Definition twc (l j q : Z) : B := eval br (fun _ => a_two br) (tw_cos (4 * l) j q).
Definition tws (l j q : Z) : B := eval br (fun _ => a_two br) (tw_sin (4 * l) j q).
Lemma vradf4_1 : forall c (o : Z -> option (v4 B)), radf4 va 1 16 (vcells 1 c) (map o (zs 64)) (vwa twc tws) 60 61 62 = Ok (vcells 4 (fstep br 1 64 c)).
Proof. intros c o. vm_compute. reflexivity. Qed.
Lemma vradf4_4 : forall c (o : Z -> option (v4 B)), radf4 va 4 4 (vcells 4 c) (map o (zs 64)) (vwa twc tws) 48 52 56 = Ok (vcells 16 (fstep br 4 16 c)).
Proof. intros c o. vm_compute. reflexivity. Qed.
Lemma vradf4_16 : forall c (o : Z -> option (v4 B)), radf4 va 16 1 (vcells 16 c) (map o (zs 64)) (vwa twc tws) 0 16 32 = Ok (vcells 64 (fstep br 16 4 c)).
Proof. intros c o. vm_compute. reflexivity. Qed.
Lemma vradb4_16 : forall c (o : Z -> option (v4 B)), radb4 va 16 1 (vcells 64 c) (map o (zs 64)) (vwa twc tws) 0 16 32 = Ok (vcells 16 (bstep br 16 4 c)).
Proof. intros c o. vm_compute. reflexivity. Qed.
Lemma vradb4_4 : forall c (o : Z -> option (v4 B)), radb4 va 4 4 (vcells 16 c) (map o (zs 64)) (vwa twc tws) 48 52 56 = Ok (vcells 4 (bstep br 4 16 c)).
Proof. intros c o. vm_compute. reflexivity. Qed.
Lemma vradb4_1 : forall c (o : Z -> option (v4 B)), radb4 va 1 16 (vcells 4 c) (map o (zs 64)) (vwa twc tws) 60 61 62 = Ok (vcells 1 (bstep br 1 64 c)).
Proof. intros c o. vm_compute. reflexivity. Qed.

(* ---- the last step forward and the first step backward ---- *)
Definition rot (c : Z -> B) (q j : Z) : B * B :=
  if j =? 0 then (c (2 * q - 1), c (2 * q)) else cplxmul br (c (64 * j + (2 * q - 1))) (c (64 * j + 2 * q)) (ec j q) (es j q).
Definition fin_bin (c : Z -> B) (t q : Z) : B * B :=
  let add := a_add br in let sub := a_sub br in
  let '(r0, i0) := rot c q 0 in let '(r1, i1) := rot c q 1 in let '(r2, i2) := rot c q 2 in let '(r3, i3) := rot c q 3 in
  let sr0 := add r0 r2 in let dr0 := sub r0 r2 in let sr1 := add r1 r3 in let dr1 := sub r3 r1 in
  let si0 := add i0 i2 in let di0 := sub i0 i2 in let si1 := add i1 i3 in let di1 := sub i3 i1 in
  if t =? 0 then (add sr0 sr1, add si0 si1) else if t =? 1 then (add dr0 di1, sub dr1 di0) else if t =? 2 then (sub dr0 di1, add dr1 di0) else (sub sr0 sr1, sub si1 si0).
Definition fin_cell (c : Z -> B) (p : Z) : B :=
  let add := a_add br in let sub := a_sub br in let mul := a_mul br in let s := s_h sa in
  let cr j := c (64 * j) in let ci j := c (64 * j + 63) in
  if p =? 0 then add (add (cr 0) (cr 2)) (add (cr 1) (cr 3)) else if p =? 1 then sub (add (cr 0) (cr 2)) (add (cr 1) (cr 3))
  else if p =? 128 then sub (cr 0) (cr 2) else if p =? 129 then sub (cr 3) (cr 1)
  else if p =? 64 then add (ci 0) (mul s (sub (ci 1) (ci 3))) else if p =? 65 then sub (s_neg sa (ci 2)) (mul s (add (ci 1) (ci 3)))
  else if p =? 192 then sub (ci 0) (mul s (sub (ci 1) (ci 3))) else if p =? 193 then sub (ci 2) (mul s (add (ci 1) (ci 3)))
  else
    let f := p / 2 in let t := f / 32 in
    let q := if t =? 0 then f else if t =? 1 then 64 - f else if t =? 2 then f - 64 else 128 - f in
    (if p mod 2 =? 0 then fst else snd) (fin_bin c t q).
Definition final (vin out scr : buf (v4 B)) : res (buf (v4 B)) := b <- real_finalize sa 32 vin out etab ;; vzreorder_fwd 256 b scr.
Lemma final_run : forall c (o p : Z -> option (v4 B)), final (vcells 64 c) (map o (zs 64)) (map p (zs 64)) = Ok (vcells 1 (fin_cell c)).
Proof. intros c o p. vm_compute. reflexivity. Qed.
(* bin f of the packed spectrum y *)
Definition pre_cell (y : Z -> B) (p : Z) : B :=
  let add := a_add br in let sub := a_sub br in let mul := a_mul br in let s := s_2 sa in let two := a_int br 2 in
  let j := p / 64 in let r := p mod 64 in
  if r =? 0 then
    if j =? 0 then add (add (y 0) (y 1)) (mul two (y 128)) else if j =? 1 then sub (sub (y 0) (y 1)) (mul two (y 129))
    else if j =? 2 then sub (add (y 0) (y 1)) (mul two (y 128)) else add (sub (y 0) (y 1)) (mul two (y 129))
  else if r =? 63 then
    if j =? 0 then mul two (add (y 64) (y 192)) else if j =? 1 then sub (mul s (sub (y 64) (y 192))) (mul s (add (y 65) (y 193)))
    else if j =? 2 then mul two (sub (y 193) (y 65)) else sub (mul (s_neg sa s) (sub (y 64) (y 192))) (mul s (add (y 65) (y 193)))
  else
    let q := (r + 1) / 2 in
    let re f := y (2 * f) in let im f := y (2 * f + 1) in
    let sr0 := add (re q) (re (128 - q)) in let dr0 := sub (re q) (re (128 - q)) in let sr1 := add (re (64 - q)) (re (64 + q)) in let dr1 := sub (re (64 - q)) (re (64 + q)) in
    let si0 := add (im q) (im (128 - q)) in let di0 := sub (im q) (im (128 - q)) in let si1 := add (im (64 - q)) (im (64 + q)) in let di1 := sub (im (64 - q)) (im (64 + q)) in
    let z := if j =? 0 then (add sr0 sr1, sub di0 di1)
             else if j =? 1 then cplxmulconj br (sub dr0 si1) (sub si0 dr1) (ec 1 q) (es 1 q)
             else if j =? 2 then cplxmulconj br (sub sr0 sr1) (add di0 di1) (ec 2 q) (es 2 q)
             else cplxmulconj br (add dr0 si1) (add si0 dr1) (ec 3 q) (es 3 q) in
    if Z.odd r then fst z else snd z.
Definition initial (vin out scr : buf (v4 B)) : res (buf (v4 B)) := b <- vzreorder_bwd 256 vin out ;; real_preprocess sa 32 b scr etab.
Lemma initial_run : forall c (o p : Z -> option (v4 B)), initial (vcells 1 c) (map o (zs 64)) (map p (zs 64)) = Ok (vcells 64 (pre_cell c)).
Proof. intros c o p. vm_compute. reflexivity. Qed.

(* ---- the whole transforms ---- *)
Lemma vcells_length : forall m c, length (vcells m c) = 64%nat.
Proof. intros. unfold vcells, cells_n, zs. now rewrite !map_length, seq_length. Qed.
Lemma vcells_init : forall m c, all_init (vcells m c) = Ok (map (vcell m c) (zs 64)).
Proof. intros m c. unfold vcells, cells_n. induction (zs 64) as [|p ps IH]; cbn [map all_init]; [reflexivity|]. rewrite IH. reflexivity. Qed.
Lemma list_zs : forall (x : list B) n d, length x = n -> x = map (fun i => nth (Z.to_nat i) x d) (zs n).
Proof.
  intros x n d <-. unfold zs. rewrite map_map. apply nth_ext with (d := d) (d' := d); [now rewrite map_length, seq_length|]. intros i Hi.
  erewrite (nth_indep (map _ _)) by (rewrite map_length, seq_length; exact Hi). rewrite (map_nth (fun p => nth (Z.to_nat (Z.of_nat p)) x d) (seq 0 (length x)) 0%nat). rewrite seq_nth by exact Hi. now rewrite Nat2Z.id.
Qed.
Lemma vecs_cells : forall x, length x = 256%nat -> map Some (vecs x) = vcells 1 (env_of br x).
Proof. intros x L. rewrite (list_zs x 256 (a_int br 0) L) at 1. unfold env_of. generalize (fun i => nth (Z.to_nat i) x (a_int br 0)). intros g. vm_compute. reflexivity. Qed.
Lemma floats_cells : forall c, floats (map (vcell 1 c) (zs 64)) = map c (zs 256).
Proof. intros c. vm_compute. reflexivity. Qed.
(* multiplying the angle of 256 points by 4 gives that of 64 points *)
Definition scales : Prop := forall z, 1 <= z <= 12 -> a_mul br (a_int br z) (a_argh br 64) = a_mul br (a_int br (4 * z)) (a_argh br 256).
Lemma wa64_scaled : scales -> wa64 (tw a_cos 64) (tw a_sin 64) = wa64 twc tws.
Proof.
  intros H. assert (C : forall l j q, 1 <= j * l <= 12 -> tw a_cos 64 l j q = twc l j q /\ tw a_sin 64 l j q = tws l j q).
  { intros l j q K. unfold tw, twc, tws, tw_cos, tw_sin. cbn [eval]. rewrite (H (j * l) K). replace (4 * (j * l)) with (j * (4 * l)) by ring. split; reflexivity. }
  unfold wa64. apply map_ext_in. intros i Hi. apply in_map_iff in Hi. destruct Hi as (n & <- & Hn). apply in_seq in Hn. set (i := Z.of_nat n). assert (0 <= i < 64) by lia.
  destruct (Z.ltb_spec i 48).
  - destruct (_ <? 14); [|reflexivity]. f_equal. assert (0 <= i / 16 <= 2) by (split; [apply Z.div_pos; lia|apply Z.lt_succ_r, Z.div_lt_upper_bound; lia]).
    destruct (C 1 (i / 16 + 1) (i mod 16 / 2 + 1)) as [C1 C2]; [lia|]. destruct (_ =? 0); assumption.
  - destruct (Z.ltb_spec i 60); [|reflexivity]. destruct (_ <? 2); [|reflexivity]. f_equal. assert (0 <= (i - 48) / 4 <= 2) by (split; [apply Z.div_pos; lia|apply Z.lt_succ_r, Z.div_lt_upper_bound; lia]).
    destruct (C 4 ((i - 48) / 4 + 1) 1) as [C1 C2]; [lia|]. destruct (_ =? 0); assumption.
Qed.
Definition vforward (c : Z -> B) : Z -> B := fin_cell (fstep br 16 4 (fstep br 4 16 (fstep br 1 64 c))).
Definition vbackward (c : Z -> B) : Z -> B := bstep br 1 64 (bstep br 4 16 (bstep br 16 4 (pre_cell c))).
Theorem vfft256_run : forall x out scr, scales -> length x = 256%nat -> length out = 64%nat -> length scr = 64%nat ->
  vfft256 sa x out scr = Ok (map (vforward (env_of br x)) (zs 256)).
Proof.
  intros x out scr SC Lx Lo Ls. unfold vfft256. rewrite vsetup_run. cbn [bind]. rewrite vecs_cells by exact Lx. rewrite wa64_scaled by exact SC. set (c := env_of br x).
  unfold vtransform_fwd. cbn [vs_ifac vs_Ncvec vs_N vs_e]. unfold vtwiddle. cbn [vs_twiddle]. fold br. fold va. fold (vwa twc tws).
  change (rdi ifac64 1) with (Ok 3 : res Z). cbn [bind]. change (negb (xorb (Z.odd 3) true)) with true. cbn [buff negb]. change (32 * 2) with 64. cbv zeta.
  assert (R : rfftf1 va 64 Inp Scr Out (vwa twc tws) ifac64 (mkmem (vcells 1 c) out scr) =
    Ok (Out, mkmem (vcells 1 c) (vcells 64 (fstep br 16 4 (fstep br 4 16 (fstep br 1 64 c)))) (vcells 16 (fstep br 4 16 (fstep br 1 64 c))))).
  { rewrite (as_fun 64 out Lo), (as_fun 64 scr Ls). set (fo := fun p => nth (Z.to_nat p) out None). set (fs := fun p => nth (Z.to_nat p) scr None).
    remember (fstep br 1 64 c) as c1 eqn:D1. remember (fstep br 4 16 c1) as c2 eqn:D2. remember (fstep br 16 4 c2) as c3 eqn:D3.
    unfold rfftf1. cbn [same orb]. change (rdi ifac64 1) with (Ok 3 : res Z). cbn [bind]. unfold for_up. change (Z.to_nat (3 + 1 - 1)) with 3%nat. cbn [loop].
    change (rdi ifac64 (3 - 1 + 2)) with (Ok 4 : res Z). cbn [bind]. change (64 / 4) with 16. change (64 / 64) with 1. change (64 - 1 - (4 - 1) * 1) with 60. change (negb (4 =? 4)) with false. cbn [get m_inp m_out m_scr].
    change (60 + 1 + 1) with 62. change (60 + 1) with 61. rewrite (vradf4_1 c fo), <- D1. cbn [bind same set m_inp m_out m_scr]. cbv zeta.
    change (rdi ifac64 (3 - (1 + 1) + 2)) with (Ok 4 : res Z). cbn [bind]. change (16 / 4) with 4. change (64 / 16) with 4. change (60 - (4 - 1) * 4) with 48. change (negb (4 =? 4)) with false. cbn [get m_inp m_out m_scr].
    change (48 + 4 + 4) with 56. change (48 + 4) with 52. rewrite (vradf4_4 c1 fs), <- D2. cbn [bind same set m_inp m_out m_scr]. cbv zeta.
    change (rdi ifac64 (3 - (1 + 1 + 1) + 2)) with (Ok 4 : res Z). cbn [bind]. change (4 / 4) with 1. change (64 / 4) with 16. change (48 - (4 - 1) * 16) with 0. change (negb (4 =? 4)) with false. cbn [get m_inp m_out m_scr].
    change (0 + 16 + 16) with 32. change (0 + 16) with 16. rewrite (as_fun 64 (vcells 4 c1) (vcells_length 4 c1)). rewrite (vradf4_16 c2), <- D3. reflexivity. }
  rewrite R. cbn [bind same buff negb get m_out m_scr set m_inp].
  set (c3 := fstep br 16 4 _). rewrite (as_fun 64 (vcells 16 _) (vcells_length 16 _)).
  pose proof (final_run c3 (fun p => nth (Z.to_nat p) (vcells 16 (fstep br 4 16 (fstep br 1 64 c))) None) (fun p => nth (Z.to_nat p) (vcells 64 c3) None)) as F. unfold final in F.
  destruct (real_finalize sa 32 (vcells 64 c3) _ (etab)) as [b|w] eqn:E; cbn [bind] in F; [|discriminate F]. cbn [bind].
  rewrite (as_fun 64 (vcells 64 c3) (vcells_length 64 c3)) at 1. rewrite F. cbn [bind m_out]. rewrite vcells_init. cbn [bind]. rewrite floats_cells. reflexivity.
Qed.
Theorem vifft256_run : forall x out scr, scales -> length x = 256%nat -> length out = 64%nat -> length scr = 64%nat ->
  vifft256 sa x out scr = Ok (map (vbackward (env_of br x)) (zs 256)).
Proof.
  intros x out scr SC Lx Lo Ls. unfold vifft256. rewrite vsetup_run. cbn [bind]. rewrite vecs_cells by exact Lx. rewrite wa64_scaled by exact SC. set (c := env_of br x).
  unfold vtransform_bwd. cbn [vs_ifac vs_Ncvec vs_N vs_e]. unfold vtwiddle. cbn [vs_twiddle]. fold br. fold va. fold (vwa twc tws).
  change (rdi ifac64 1) with (Ok 3 : res Z). cbn [bind]. change (xorb (Z.odd 3) true) with false. cbn [buff negb get m_inp m_out m_scr]. change (32 * 2) with 64. cbv zeta.
  rewrite (as_fun 64 out Lo), (as_fun 64 scr Ls). set (fo := fun p => nth (Z.to_nat p) out None). set (fs := fun p => nth (Z.to_nat p) scr None).
  pose proof (initial_run c fo fs) as F. unfold initial in F.
  destruct (vzreorder_bwd 256 (vcells 1 c) (map fo (zs 64))) as [b|w] eqn:E; cbn [bind] in F; [|discriminate F]. cbn [bind set get m_inp m_out m_scr]. rewrite F. cbn [bind set get m_inp m_out m_scr].
  assert (LB : length b = 64%nat).
  { assert (K : exists g, vzreorder_bwd 256 (vcells 1 c) (map fo (zs 64)) = Ok (map g (zs 64))).
    { eexists (fun p => nth (Z.to_nat p) (match vzreorder_bwd 256 (vcells 1 c) (map fo (zs 64)) with Ok b => b | UB _ => [] end) None). vm_compute. reflexivity. }
    destruct K as [g K]. rewrite K in E. assert (Eb : b = map g (zs 64)) by congruence. rewrite Eb. unfold zs. now rewrite !map_length, seq_length. }
  remember (pre_cell c) as c0 eqn:D0. remember (bstep br 16 4 c0) as c1 eqn:D1. remember (bstep br 4 16 c1) as c2 eqn:D2. remember (bstep br 1 64 c2) as c3 eqn:D3.
  assert (R : rfftb1 va 64 Scr Out Scr (vwa twc tws) ifac64 (mkmem (vcells 1 c) b (vcells 64 c0)) = Ok (Out, mkmem (vcells 1 c) (vcells 1 c3) (vcells 4 c2))).
  { unfold rfftb1. cbn [same]. change (rdi ifac64 1) with (Ok 3 : res Z). cbn [bind]. unfold for_up. change (Z.to_nat (3 + 1 - 1)) with 3%nat. cbn [loop].
    change (rdi ifac64 (1 + 1)) with (Ok 4 : res Z). cbn [bind]. change (64 / (4 * 1)) with 16. change (0 + 16 + 16) with 32. change (0 + 16) with 16. change (negb (4 =? 4)) with false. cbn [get m_inp m_out m_scr].
    rewrite (as_fun 64 b LB). rewrite (vradb4_16 c0), <- D1. cbn [bind same set m_inp m_out m_scr]. cbv zeta.
    change (rdi ifac64 (1 + 1 + 1)) with (Ok 4 : res Z). cbn [bind]. change (4 * 1) with 4. change (64 / (4 * 4)) with 4. change (0 + (4 - 1) * 16) with 48. change (48 + 4 + 4) with 56. change (48 + 4) with 52. change (negb (4 =? 4)) with false. cbn [get m_inp m_out m_scr].
    rewrite (as_fun 64 (vcells 64 c0) (vcells_length 64 c0)). rewrite (vradb4_4 c1), <- D2. cbn [bind same set m_inp m_out m_scr]. cbv zeta.
    change (rdi ifac64 (1 + 1 + 1 + 1)) with (Ok 4 : res Z). cbn [bind]. change (4 * 4) with 16. change (64 / (4 * 16)) with 1. change (48 + (4 - 1) * 4) with 60. change (60 + 1 + 1) with 62. change (60 + 1) with 61. change (negb (4 =? 4)) with false. cbn [get m_inp m_out m_scr].
    rewrite (as_fun 64 (vcells 16 c1) (vcells_length 16 c1)). rewrite (vradb4_1 c2), <- D3. reflexivity. }
  rewrite R. cbn [bind same m_out]. rewrite vcells_init. cbn [bind]. rewrite floats_cells. rewrite D3, D2, D1, D0. reflexivity.
Qed.
End Simd.
