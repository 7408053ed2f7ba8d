(* The FFT of any arithmetic as four steps, each a formula per output cell. *)
From Coq Require Import ZArith List Bool Lia.
From Verif Require Import Res F32 MParms MFft PFftSym.
Import ListNotations.
Local Open Scope Z_scope.

(* cosine and sine of 2 pi j q l / 256 *)
Definition tw_cos (l j q : Z) : term := Cos (Mul (Int q) (Mul (Int (j * l)) (Argh 256))).
Definition tw_sin (l j q : Z) : term := Sin (Mul (Int q) (Mul (Int (j * l)) (Argh 256))).

(* output cell p of a forward step: blocks of m cells into blocks of 4 m cells, l of them *)
Definition fterm_at (m l k r : Z) : term :=
  let a j i := In (m * (k + l * j) + i) in
  if r =? 0 then Add (Add (a 1 0) (a 3 0)) (Add (a 0 0) (a 2 0))
  else if r =? 4 * m - 1 then Sub (Add (a 0 0) (a 2 0)) (Add (a 1 0) (a 3 0))
  else if r =? 2 * m - 1 then Sub (a 0 0) (a 2 0)
  else if r =? 2 * m then Sub (a 3 0) (a 1 0)
  else if r =? m - 1 then Add (Mul Mh (Sub (a 3 (m - 1)) (a 1 (m - 1)))) (a 0 (m - 1))
  else if r =? 3 * m - 1 then Sub (a 0 (m - 1)) (Mul Mh (Sub (a 3 (m - 1)) (a 1 (m - 1))))
  else if r =? m then Sub (Mul Mh (Add (a 1 (m - 1)) (a 3 (m - 1)))) (a 2 (m - 1))
  else if r =? 3 * m then Add (Mul Mh (Add (a 1 (m - 1)) (a 3 (m - 1)))) (a 2 (m - 1))
  else
    let f := (r + 1) / 2 in
    let t := (2 * f) / m in (* the quarter of the half spectrum *)
    let q := if t =? 0 then f else if t =? 1 then m - f else if t =? 2 then f - m else 2 * m - f in
    let c j := if j =? 0 then (a 0 (2 * q - 1), a 0 (2 * q)) else cplxmulconj terms (a j (2 * q - 1)) (a j (2 * q)) (tw_cos l j q) (tw_sin l j q) in
    let '(r0, i0) := c 0 in let '(r1, i1) := c 1 in let '(r2, i2) := c 2 in let '(r3, i3) := c 3 in
    if Z.odd r then
      if t =? 0 then Add (Add r1 r3) (Add r0 r2) else if t =? 3 then Sub (Add r0 r2) (Add r1 r3)
      else if t =? 2 then Add (Sub i1 i3) (Sub r0 r2) else Sub (Sub r0 r2) (Sub i1 i3)
    else
      if t =? 0 then Add (Add i1 i3) (Add i0 i2) else if t =? 3 then Sub (Add i1 i3) (Add i0 i2)
      else if t =? 2 then Add (Sub r3 r1) (Sub i0 i2) else Sub (Sub r3 r1) (Sub i0 i2).

Definition fterm (m l p : Z) : term := fterm_at m l (p / (4 * m)) (p mod (4 * m)).

(* output cell p of a backward step: l blocks of 4 m cells into blocks of m cells *)
Definition bterm_at (m l k j r : Z) : term :=
  let h i := In (4 * m * k + i) in
  if r =? 0 then
    let tr3 := Mul Two (h (2 * m - 1)) in let tr4 := Mul Two (h (2 * m)) in
    let tr2 := Add (h 0) (h (4 * m - 1)) in let tr1 := Sub (h 0) (h (4 * m - 1)) in
    if j =? 0 then Add tr2 tr3 else if j =? 1 then Sub tr1 tr4 else if j =? 2 then Sub tr2 tr3 else Add tr1 tr4
  else if r =? m - 1 then
    let tr1 := Sub (h (m - 1)) (h (3 * m - 1)) in let tr2 := Add (h (m - 1)) (h (3 * m - 1)) in
    let ti1 := Add (h (3 * m)) (h m) in let ti2 := Sub (h (3 * m)) (h m) in
    if j =? 0 then Add tr2 tr2 else if j =? 1 then Mul Ms (Sub ti1 tr1) else if j =? 2 then Add ti2 ti2 else Mul Ms (Add ti1 tr1)
  else
    let q := (r + 1) / 2 in
    let re f := h (2 * f - 1) in let im f := h (2 * f) in
    let tr1 := Sub (re q) (re (2 * m - q)) in let tr2 := Add (re q) (re (2 * m - q)) in
    let ti4 := Sub (re (m + q)) (re (m - q)) in let tr3 := Add (re (m + q)) (re (m - q)) in
    let ti3 := Sub (im (m + q)) (im (m - q)) in let tr4 := Add (im (m + q)) (im (m - q)) in
    let ti1 := Add (im q) (im (2 * m - q)) in let ti2 := Sub (im q) (im (2 * m - q)) in
    let c := if j =? 0 then (Add tr2 tr3, Add ti2 ti3)
             else if j =? 1 then cplxmul terms (Sub tr1 tr4) (Add ti1 ti4) (tw_cos l 1 q) (tw_sin l 1 q)
             else if j =? 2 then cplxmul terms (Sub tr2 tr3) (Sub ti2 ti3) (tw_cos l 2 q) (tw_sin l 2 q)
             else cplxmul terms (Add tr1 tr4) (Sub ti1 ti4) (tw_cos l 3 q) (tw_sin l 3 q) in
    if Z.odd r then fst c else snd c.

Definition bterm (m l p : Z) : term := bterm_at m l ((p / m) mod l) (p / m / l) (p mod m).

Definition zs (n : nat) : list Z := map Z.of_nat (seq 0 n).
Definition inputs : buf term := map (fun p => Some (In p)) (zs 256).
Definition sym_setup : setup (A := term) := Eval vm_compute in
  match new_setup terms 256 with Ok (Some s) => s | _ => mksetup 0 0 [] [] end.
Definition sym_wa : buf term := s_twiddle sym_setup.
Definition ifac256 : list (option Z) := [Some 256; Some 4; Some 4; Some 4; Some 4; Some 4] ++ repeat None 19.
Definition fcheck (ido l1 iw : Z) : bool :=
  match radf4 terms ido l1 inputs (fresh 256) sym_wa iw (iw + ido) (iw + ido + ido) with Ok b => cells_eqb b (map (fterm ido l1) (zs 256)) | UB _ => false end.
Definition bcheck (ido l1 iw : Z) : bool :=
  match radb4 terms ido l1 inputs (fresh 256) sym_wa iw (iw + ido) (iw + ido + ido) with Ok b => cells_eqb b (map (bterm ido l1) (zs 256)) | UB _ => false end.

Lemma fcheck_ok : fcheck 1 64 252 = true /\ fcheck 4 16 240 = true /\ fcheck 16 4 192 = true /\ fcheck 64 1 0 = true.
Proof. split; [vm_compute; reflexivity|split; [vm_compute; reflexivity|split; vm_compute; reflexivity]]. Qed.
Lemma bcheck_ok : bcheck 1 64 252 = true /\ bcheck 4 16 240 = true /\ bcheck 16 4 192 = true /\ bcheck 64 1 0 = true.
Proof. split; [vm_compute; reflexivity|split; [vm_compute; reflexivity|split; vm_compute; reflexivity]]. Qed.
Lemma sym_setup_ok : new_setup terms 256 = Ok (Some sym_setup).
Proof. vm_compute. reflexivity. Qed.

(* ---- any arithmetic ---- *)
Definition cells {B} (g : Z -> B) : buf B := map (fun p => Some (g p)) (zs 256).
Section Run.
Context {B : Type} (br : arith B).
Definition fstep (m l : Z) (c : Z -> B) (p : Z) : B := eval br c (fterm m l p).
Definition bstep (m l : Z) (c : Z -> B) (p : Z) : B := eval br c (bterm m l p).
Definition good_wa (wa : buf B) : Prop := forall env, buf_le (eval br env) sym_wa wa.

Lemma buf_le_some : forall {A} (f : A -> B) ts y, buf_le f (map Some ts) y -> y = map (fun t => Some (f t)) ts.
Proof. intros A f ts. induction ts as [|t ts IH]; intros y E; inversion E as [|a b u v K F]; subst; [reflexivity|]. cbn in K. subst b. cbn [map]. f_equal. now apply IH. Qed.
Lemma inputs_le : forall c, buf_le (eval br c) inputs (cells c).
Proof. intros c. unfold inputs, cells. induction (zs 256) as [|p ps IH]; cbn [map]; constructor; [reflexivity|exact IH]. Qed.
Lemma fresh_le_any : forall {A} (f : A -> B) ch, length ch = 256%nat -> buf_le f (fresh 256) ch.
Proof.
  intros A f ch L. unfold fresh. change (Z.to_nat 256) with 256%nat. rewrite <- L. clear L. induction ch as [|x ch IH]; cbn [length repeat]; constructor; [exact I|exact IH].
Qed.
Lemma radf4_run : forall ido l1 iw c ch wa, fcheck ido l1 iw = true -> length ch = 256%nat -> good_wa wa ->
  radf4 br ido l1 (cells c) ch wa iw (iw + ido) (iw + ido + ido) = Ok (cells (fstep ido l1 c)).
Proof.
  intros ido l1 iw c ch wa K L W. unfold fcheck in K. destruct (radf4 terms _ _ _ _ _ _ _ _) as [b|] eqn:E in K; [|discriminate K]. apply cells_eqb_eq in K.
  destruct (radf4_le (eval br c) terms br (eval_hom br c) ido l1 inputs (cells c) (fresh 256) ch sym_wa wa iw (iw + ido) (iw + ido + ido) (inputs_le c) (fresh_le_any _ ch L) (W c) b E) as (b' & E' & F).
  rewrite E'. subst b. apply buf_le_some in F. subst b'. rewrite map_map. reflexivity.
Qed.
Lemma radb4_run : forall ido l1 iw c ch wa, bcheck ido l1 iw = true -> length ch = 256%nat -> good_wa wa ->
  radb4 br ido l1 (cells c) ch wa iw (iw + ido) (iw + ido + ido) = Ok (cells (bstep ido l1 c)).
Proof.
  intros ido l1 iw c ch wa K L W. unfold bcheck in K. destruct (radb4 terms _ _ _ _ _ _ _ _) as [b|] eqn:E in K; [|discriminate K]. apply cells_eqb_eq in K.
  destruct (radb4_le (eval br c) terms br (eval_hom br c) ido l1 inputs (cells c) (fresh 256) ch sym_wa wa iw (iw + ido) (iw + ido + ido) (inputs_le c) (fresh_le_any _ ch L) (W c) b E) as (b' & E' & F).
  rewrite E'. subst b. apply buf_le_some in F. subst b'. rewrite map_map. reflexivity.
Qed.
(* reordering *)
Definition fwd_pos (k : Z) : Z := if k =? 0 then 0 else if k =? 1 then 255 else k - 1.
Definition bwd_pos (k : Z) : Z := if k =? 0 then 0 else if k =? 255 then 1 else k + 1.
Lemma zreorder_fwd_run : forall (c : Z -> B) ch, length ch = 256%nat -> zreorder_fwd 256 (cells c) ch = Ok (cells (fun k => c (fwd_pos k))).
Proof.
  intros c ch L. assert (E : zreorder_fwd 256 inputs (fresh 256) = Ok (map (fun k => Some (In (fwd_pos k))) (zs 256))) by (vm_compute; reflexivity).
  destruct (zreorder_fwd_le (eval br c) 256 inputs (cells c) (fresh 256) ch (inputs_le c) (fresh_le_any _ ch L) _ E) as (b' & E' & F).
  rewrite E'. rewrite <- (map_map (fun k => In (fwd_pos k)) Some) in F. apply buf_le_some in F. subst b'. rewrite map_map. reflexivity.
Qed.
Lemma zreorder_bwd_run : forall (c : Z -> B) ch, length ch = 256%nat -> zreorder_bwd 256 (cells c) ch = Ok (cells (fun k => c (bwd_pos k))).
Proof.
  intros c ch L. assert (E : zreorder_bwd 256 inputs (fresh 256) = Ok (map (fun k => Some (In (bwd_pos k))) (zs 256))) by (vm_compute; reflexivity).
  destruct (zreorder_bwd_le (eval br c) 256 inputs (cells c) (fresh 256) ch (inputs_le c) (fresh_le_any _ ch L) _ E) as (b' & E' & F).
  rewrite E'. rewrite <- (map_map (fun k => In (bwd_pos k)) Some) in F. apply buf_le_some in F. subst b'. rewrite map_map. reflexivity.
Qed.
Lemma setup_run : exists wa, new_setup br 256 = Ok (Some (mksetup 256 128 ifac256 wa)) /\ good_wa wa.
Proof.
  destruct (new_setup_le (eval br (fun _ => a_two br)) terms br (eval_hom br _) 256 _ sym_setup_ok) as (s' & E & (s & -> & E1 & E2 & E3 & _)).
  destruct s as [n v ifac wa]. cbn in E1, E2, E3. subst n v ifac. exists wa. split; [exact E|]. intros env.
  destruct (new_setup_le (eval br env) terms br (eval_hom br _) 256 _ sym_setup_ok) as (s' & F & (s & -> & _ & _ & _ & W)). rewrite E in F. injection F as <-. exact W.
Qed.
Lemma cells_length : forall c : Z -> B, length (cells c) = 256%nat.
Proof. intros. unfold cells, zs. now rewrite !map_length, seq_length. Qed.
Lemma cells_init : forall c : Z -> B, all_init (cells c) = Ok (map c (zs 256)).
Proof. intros c. unfold cells. induction (zs 256) as [|p ps IH]; cbn [map all_init]; [reflexivity|]. rewrite IH. reflexivity. Qed.
Definition env_of (x : list B) (i : Z) : B := nth (Z.to_nat i) x (a_int br 0).
Lemma some_cells : forall x, length x = 256%nat -> map Some x = cells (env_of x).
Proof.
  intros x L. unfold cells, zs. rewrite map_map. apply nth_ext with (d := None) (d' := None); [now rewrite !map_length, seq_length|]. rewrite map_length, L. intros n Hn.
  rewrite nth_indep with (d' := Some (a_int br 0)) by (now rewrite map_length, L). rewrite map_nth. symmetry.
  erewrite nth_indep by (rewrite map_length, seq_length; exact Hn). rewrite (map_nth (fun x0 => Some (env_of x (Z.of_nat x0))) (seq 0 256) 0%nat). rewrite seq_nth by exact Hn. unfold env_of. now rewrite Nat2Z.id.
Qed.
Definition forward (c : Z -> B) (k : Z) : B := fstep 64 1 (fstep 16 4 (fstep 4 16 (fstep 1 64 c))) (fwd_pos k).
Definition backward (c : Z -> B) : Z -> B := bstep 1 64 (bstep 4 16 (bstep 16 4 (bstep 64 1 (fun k => c (bwd_pos k))))).
Theorem fft256_run : forall x out scr, length x = 256%nat -> length out = 256%nat -> length scr = 256%nat ->
  fft256 br x out scr = Ok (map (forward (env_of x)) (zs 256)).
Proof.
  intros x out scr Lx Lo Ls. destruct fcheck_ok as (K1 & K2 & K3 & K4). destruct setup_run as (wa & ES & W). unfold fft256. rewrite ES. cbn [bind]. rewrite some_cells by exact Lx.
  assert (R : rfftf1 br 256 Inp Scr Out wa ifac256 (mkmem (cells (env_of x)) out scr) =
    Ok (Scr, mkmem (cells (env_of x)) (cells (fstep 16 4 (fstep 4 16 (fstep 1 64 (env_of x))))) (cells (fstep 64 1 (fstep 16 4 (fstep 4 16 (fstep 1 64 (env_of x)))))))).
  { remember (fstep 1 64 (env_of x)) as c1 eqn:D1. remember (fstep 4 16 c1) as c2 eqn:D2. remember (fstep 16 4 c2) as c3 eqn:D3. remember (fstep 64 1 c3) as c4 eqn:D4.
    unfold rfftf1. cbn [same orb]. change (rdi ifac256 1) with (Ok 4 : res Z). cbn [bind]. unfold for_up. change (Z.to_nat (4 + 1 - 1)) with 4%nat. cbn [loop].
    change (rdi ifac256 (4 - 1 + 2)) with (Ok 4 : res Z). cbn [bind]. change (256 / 4) with 64. change (256 / 256) with 1. change (256 - 1 - (4 - 1) * 1) with 252. change (negb (4 =? 4)) with false. cbn [get m_inp m_out m_scr].
    rewrite (radf4_run 1 64 252 (env_of x) out wa K1 Lo W), <- D1. cbn [bind same set]. cbv zeta.
    change (rdi ifac256 (4 - (1 + 1) + 2)) with (Ok 4 : res Z). cbn [bind]. change (64 / 4) with 16. change (256 / 64) with 4. change (252 - (4 - 1) * 4) with 240. change (negb (4 =? 4)) with false. cbn [get m_inp m_out m_scr].
    rewrite (radf4_run 4 16 240 c1 scr wa K2 Ls W), <- D2. cbn [bind same set m_inp m_out m_scr]. cbv zeta.
    change (rdi ifac256 (4 - (1 + 1 + 1) + 2)) with (Ok 4 : res Z). cbn [bind]. change (16 / 4) with 4. change (256 / 16) with 16. change (240 - (4 - 1) * 16) with 192. change (negb (4 =? 4)) with false. cbn [get m_inp m_out m_scr].
    rewrite (radf4_run 16 4 192 c2 (cells c1) wa K3 (cells_length c1) W), <- D3. cbn [bind same set m_inp m_out m_scr]. cbv zeta.
    change (rdi ifac256 (4 - (1 + 1 + 1 + 1) + 2)) with (Ok 4 : res Z). cbn [bind]. change (4 / 4) with 1. change (256 / 4) with 64. change (192 - (4 - 1) * 64) with 0. change (negb (4 =? 4)) with false. cbn [get m_inp m_out m_scr].
    rewrite (radf4_run 64 1 0 c3 (cells c2) wa K4 (cells_length c2) W), <- D4. reflexivity. }
  unfold transform_fwd. cbn [s_ifac s_Ncvec s_N s_twiddle]. change (rdi ifac256 1) with (Ok 4 : res Z). cbn [bind]. change (xorb (Z.odd 4) true) with true. cbn [buff negb]. change (128 * 2) with 256. cbv zeta. rewrite R.
  cbn [bind buff negb same get m_out m_scr]. rewrite zreorder_fwd_run by apply cells_length. cbn [bind set m_out]. apply cells_init.
Qed.
Theorem ifft256_run : forall x out scr, length x = 256%nat -> length out = 256%nat -> length scr = 256%nat ->
  ifft256 br x out scr = Ok (map (backward (env_of x)) (zs 256)).
Proof.
  intros x out scr Lx Lo Ls. destruct bcheck_ok as (K1 & K2 & K3 & K4). destruct setup_run as (wa & ES & W). unfold ifft256. rewrite ES. cbn [bind]. rewrite some_cells by exact Lx.
  unfold transform_bwd. cbn [s_ifac s_Ncvec s_N s_twiddle]. change (rdi ifac256 1) with (Ok 4 : res Z). cbn [bind]. change (xorb (Z.odd 4) true) with true. cbn [buff negb get m_inp m_out]. change (128 * 2) with 256. cbv zeta.
  rewrite zreorder_bwd_run by exact Lo. cbn [bind set m_inp m_scr]. set (c := fun k => env_of x (bwd_pos k)).
  assert (R : rfftb1 br 256 Out Scr Out wa ifac256 (mkmem (cells (env_of x)) (cells c) scr) =
    Ok (Out, mkmem (cells (env_of x)) (cells (bstep 1 64 (bstep 4 16 (bstep 16 4 (bstep 64 1 c))))) (cells (bstep 4 16 (bstep 16 4 (bstep 64 1 c)))))).
  { remember (bstep 64 1 c) as c1 eqn:D1. remember (bstep 16 4 c1) as c2 eqn:D2. remember (bstep 4 16 c2) as c3 eqn:D3. remember (bstep 1 64 c3) as c4 eqn:D4.
    unfold rfftb1. cbn [same orb]. change (rdi ifac256 1) with (Ok 4 : res Z). cbn [bind]. unfold for_up. change (Z.to_nat (4 + 1 - 1)) with 4%nat. cbn [loop].
    change (rdi ifac256 (1 + 1)) with (Ok 4 : res Z). cbn [bind]. change (4 * 1) with 4. change (256 / 4) with 64. change (0 + (4 - 1) * 64) with 192. change (negb (4 =? 4)) with false. cbn [get m_inp m_out m_scr].
    rewrite (radb4_run 64 1 0 c scr wa K4 Ls W), <- D1. cbn [bind same set m_inp m_out m_scr]. cbv zeta.
    change (rdi ifac256 (1 + 1 + 1)) with (Ok 4 : res Z). cbn [bind]. change (4 * 4) with 16. change (256 / 16) with 16. change (192 + (4 - 1) * 16) with 240. change (negb (4 =? 4)) with false. cbn [get m_inp m_out m_scr].
    rewrite (radb4_run 16 4 192 c1 (cells c) wa K3 (cells_length c) W), <- D2. cbn [bind same set m_inp m_out m_scr]. cbv zeta.
    change (rdi ifac256 (1 + 1 + 1 + 1)) with (Ok 4 : res Z). cbn [bind]. change (4 * 16) with 64. change (256 / 64) with 4. change (240 + (4 - 1) * 4) with 252. change (negb (4 =? 4)) with false. cbn [get m_inp m_out m_scr].
    rewrite (radb4_run 4 16 240 c2 (cells c1) wa K2 (cells_length c1) W), <- D3. cbn [bind same set m_inp m_out m_scr]. cbv zeta.
    change (rdi ifac256 (1 + 1 + 1 + 1 + 1)) with (Ok 4 : res Z). cbn [bind]. change (4 * 64) with 256. change (256 / 256) with 1. change (negb (4 =? 4)) with false. cbn [get m_inp m_out m_scr].
    rewrite (radb4_run 1 64 252 c3 (cells c2) wa K1 (cells_length c2) W), <- D4. reflexivity. }
  rewrite R. cbn [bind same m_out]. apply cells_init.
Qed.
End Run.
