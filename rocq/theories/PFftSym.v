(* Running the FFT over terms, and carrying the result over to any arithmetic. *)
From Coq Require Import ZArith List Bool Lia.
From Verif Require Import Res F32 MParms MFft.
Import ListNotations.
Local Open Scope Z_scope.

(* ---- simulation: where the first run is defined the second is too, with a related value ---- *)
Definition le {A B} (R : A -> B -> Prop) (x : res A) (y : res B) : Prop := forall a, x = Ok a -> exists b, y = Ok b /\ R a b.
Lemma le_ok : forall {A B} (R : A -> B -> Prop) a b, R a b -> le R (Ok a) (Ok b).
Proof. intros A B R a b H x E. injection E as <-. eauto. Qed.
Lemma le_ub : forall {A B} (R : A -> B -> Prop) w y, le R (UB w) y.
Proof. intros A B R w y x E. discriminate. Qed.
Lemma le_bind : forall {A B C D} (R : A -> B -> Prop) (S : C -> D -> Prop) x y f g,
  le R x y -> (forall a b, R a b -> le S (f a) (g b)) -> le S (bind x f) (bind y g).
Proof.
  intros A B C D R S [a|w] y f g H K c E; cbn [bind] in E; [|discriminate]. destruct (H a eq_refl) as (b & -> & Hb). cbn [bind]. exact (K a b Hb c E).
Qed.
Lemma le_refl : forall {A} (x : res A), le eq x x.
Proof. intros A x a ->. eauto. Qed.
Lemma le_loop : forall {A B} (R : A -> B -> Prop) f g, (forall k x y, R x y -> le R (f k x) (g k y)) ->
  forall n i st x y, R x y -> le R (loop n i st f x) (loop n i st g y).
Proof.
  intros A B R f g K. induction n as [|n IH]; intros i st x y H; cbn [loop]; [apply le_ok, H|].
  eapply le_bind; [apply K, H|]. intros a b E. apply IH, E.
Qed.
Lemma le_for_up : forall {A B} (R : A -> B -> Prop) f g lo hi x y, (forall k x y, R x y -> le R (f k x) (g k y)) -> R x y -> le R (for_up lo hi f x) (for_up lo hi g y).
Proof. intros. now apply le_loop. Qed.

(* ---- maps between arithmetics ---- *)
Record hom {A B} (f : A -> B) (ar : arith A) (br : arith B) : Prop := mkhom {
  h_add : forall x y, f (a_add ar x y) = a_add br (f x) (f y);
  h_sub : forall x y, f (a_sub ar x y) = a_sub br (f x) (f y);
  h_mul : forall x y, f (a_mul ar x y) = a_mul br (f x) (f y);
  h_int : forall z, f (a_int ar z) = a_int br z;
  h_two : f (a_two ar) = a_two br; h_mh : f (a_mh ar) = a_mh br; h_ms : f (a_ms ar) = a_ms br;
  h_argh : forall n, f (a_argh ar n) = a_argh br n;
  h_cos : forall x, f (a_cos ar x) = a_cos br (f x); h_sin : forall x, f (a_sin ar x) = a_sin br (f x) }.

(* a cell of the first buffer that is initialised holds the value whose image the second has *)
Definition cell_le {A B} (f : A -> B) (a : option A) (b : option B) : Prop := match a with Some v => b = Some (f v) | None => True end.
Definition buf_le {A B} (f : A -> B) : buf A -> buf B -> Prop := Forall2 (cell_le f).

Lemma buf_le_length : forall {A B} (f : A -> B) x y, buf_le f x y -> length x = length y.
Proof. intros A B f x y E. induction E; cbn [length]; congruence. Qed.
Section Sim.
Context {A B : Type} (f : A -> B) (ar : arith A) (br : arith B) (H : hom f ar br).
Let V (x : A) (y : B) := y = f x.
Lemma rd_le : forall x y i, buf_le f x y -> le (cell_le f) (rd x i) (rd y i).
Proof.
  intros x y i E. unfold rd. destruct (i <? 0); [apply le_ub|]. generalize (Z.to_nat i). induction E as [|a b x y K E IH]; intros [|n]; cbn [nth_error]; try apply le_ub.
  - apply le_ok, K.
  - apply IH.
Qed.
Lemma rdi_le : forall x y i, buf_le f x y -> le V (rdi x i) (rdi y i).
Proof. intros x y i E. unfold rdi. eapply le_bind; [apply rd_le, E|]. intros [a|] b K; cbn in K; [subst b; cbn; now apply le_ok|apply le_ub]. Qed.
Lemma wr_le : forall x y i a b, buf_le f x y -> cell_le f a b -> le (buf_le f) (wr x i a) (wr y i b).
Proof.
  intros x y i a b E K. unfold wr. destruct (i <? 0); [apply le_ub|]. rewrite <- (buf_le_length _ _ _ E). destruct (_ <? _)%nat; [|apply le_ub]. apply le_ok.
  generalize (Z.to_nat i). clear i. induction E as [|c d x y C E IH]; intros [|n]; cbn [set_nth]; constructor; auto. apply IH.
Qed.
Lemma put_le : forall x y i a b, buf_le f x y -> V a b -> le (buf_le f) (put x i a) (put y i b).
Proof. intros x y i a b E ->. apply wr_le; [exact E|reflexivity]. Qed.
Lemma add_le : forall a b c d, V a b -> V c d -> V (a_add ar a c) (a_add br b d).
Proof. intros a b c d -> ->. symmetry. apply (h_add _ _ _ H). Qed.
Lemma sub_le : forall a b c d, V a b -> V c d -> V (a_sub ar a c) (a_sub br b d).
Proof. intros a b c d -> ->. symmetry. apply (h_sub _ _ _ H). Qed.
Lemma mul_le : forall a b c d, V a b -> V c d -> V (a_mul ar a c) (a_mul br b d).
Proof. intros a b c d -> ->. symmetry. apply (h_mul _ _ _ H). Qed.
Lemma cos_le : forall a b, V a b -> V (a_cos ar a) (a_cos br b).
Proof. intros a b ->. symmetry. apply (h_cos _ _ _ H). Qed.
Lemma sin_le : forall a b, V a b -> V (a_sin ar a) (a_sin br b).
Proof. intros a b ->. symmetry. apply (h_sin _ _ _ H). Qed.
Lemma int_le : forall z, V (a_int ar z) (a_int br z). Proof. intros z. symmetry. apply (h_int _ _ _ H). Qed.
Lemma two_le : V (a_two ar) (a_two br). Proof. symmetry. apply (h_two _ _ _ H). Qed.
Lemma mh_le : V (a_mh ar) (a_mh br). Proof. symmetry. apply (h_mh _ _ _ H). Qed.
Lemma ms_le : V (a_ms ar) (a_ms br). Proof. symmetry. apply (h_ms _ _ _ H). Qed.
Lemma argh_le : forall n, V (a_argh ar n) (a_argh br n). Proof. intros z. symmetry. apply (h_argh _ _ _ H). Qed.

Ltac val := solve [repeat first [eassumption | apply add_le | apply sub_le | apply mul_le | apply cos_le | apply sin_le | apply int_le | apply two_le | apply mh_le | apply ms_le | apply argh_le]].
Ltac step := first
  [ apply le_ok; eassumption
  | apply put_le; [eassumption|val]
  | eapply le_bind; [first [apply rdi_le; eassumption | apply put_le; [eassumption|val]]|intros ? ? ?]
  | progress (cbv beta iota zeta) ].

Lemma radf4_first_le : forall ido l1 cc cc' ch ch', buf_le f cc cc' -> buf_le f ch ch' -> le (buf_le f) (radf4_first ar ido l1 cc ch) (radf4_first br ido l1 cc' ch').
Proof. intros ido l1 cc cc' ch ch' E F. unfold radf4_first. cbv zeta. apply le_loop; [|exact F]. intros q x y G. repeat step. Qed.
Lemma radf4_mid_le : forall ido l1 cc cc' wa wa' w1 w2 w3 ch ch', buf_le f cc cc' -> buf_le f wa wa' -> buf_le f ch ch' ->
  le (buf_le f) (radf4_mid ar ido l1 cc wa w1 w2 w3 ch) (radf4_mid br ido l1 cc' wa' w1 w2 w3 ch').
Proof.
  intros ido l1 cc cc' wa wa' w1 w2 w3 ch ch' E W F. unfold radf4_mid, cplxmulconj. cbv zeta. apply le_loop; [|exact F]. intros k x y G. apply le_loop; [|exact G]. intros i u v K. repeat step.
Qed.
Lemma radf4_last_le : forall ido l1 cc cc' ch ch', buf_le f cc cc' -> buf_le f ch ch' -> le (buf_le f) (radf4_last ar ido l1 cc ch) (radf4_last br ido l1 cc' ch').
Proof. intros ido l1 cc cc' ch ch' E F. unfold radf4_last. cbv zeta. apply le_loop; [|exact F]. intros q x y G. repeat step. Qed.
Lemma radf4_le : forall ido l1 cc cc' ch ch' wa wa' w1 w2 w3, buf_le f cc cc' -> buf_le f ch ch' -> buf_le f wa wa' ->
  le (buf_le f) (radf4 ar ido l1 cc ch wa w1 w2 w3) (radf4 br ido l1 cc' ch' wa' w1 w2 w3).
Proof.
  intros ido l1 cc cc' ch ch' wa wa' w1 w2 w3 E F W. unfold radf4. eapply le_bind; [apply radf4_first_le; eassumption|]. intros a b G. destruct (ido <? 2); [apply le_ok, G|].
  destruct (ido =? 2); [apply radf4_last_le; assumption|]. eapply le_bind; [apply radf4_mid_le; eassumption|]. intros c d K. destruct (ido mod 2 =? 1); [apply le_ok, K|apply radf4_last_le; assumption].
Qed.
Lemma radb4_first_le : forall ido l1 cc cc' ch ch', buf_le f cc cc' -> buf_le f ch ch' -> le (buf_le f) (radb4_first ar ido l1 cc ch) (radb4_first br ido l1 cc' ch').
Proof. intros ido l1 cc cc' ch ch' E F. unfold radb4_first. cbv zeta. apply le_loop; [|exact F]. intros q x y G. repeat step. Qed.
Lemma radb4_mid_le : forall ido l1 cc cc' wa wa' w1 w2 w3 ch ch', buf_le f cc cc' -> buf_le f wa wa' -> buf_le f ch ch' ->
  le (buf_le f) (radb4_mid ar ido l1 cc wa w1 w2 w3 ch) (radb4_mid br ido l1 cc' wa' w1 w2 w3 ch').
Proof.
  intros ido l1 cc cc' wa wa' w1 w2 w3 ch ch' E W F. unfold radb4_mid, cplxmul. cbv zeta. apply le_loop; [|exact F]. intros k x y G. apply le_loop; [|exact G]. intros i u v K. repeat step.
Qed.
Lemma radb4_last_le : forall ido l1 cc cc' ch ch', buf_le f cc cc' -> buf_le f ch ch' -> le (buf_le f) (radb4_last ar ido l1 cc ch) (radb4_last br ido l1 cc' ch').
Proof. intros ido l1 cc cc' ch ch' E F. unfold radb4_last. cbv zeta. apply le_loop; [|exact F]. intros q x y G. repeat step. Qed.
Lemma radb4_le : forall ido l1 cc cc' ch ch' wa wa' w1 w2 w3, buf_le f cc cc' -> buf_le f ch ch' -> buf_le f wa wa' ->
  le (buf_le f) (radb4 ar ido l1 cc ch wa w1 w2 w3) (radb4 br ido l1 cc' ch' wa' w1 w2 w3).
Proof.
  intros ido l1 cc cc' ch ch' wa wa' w1 w2 w3 E F W. unfold radb4. eapply le_bind; [apply radb4_first_le; eassumption|]. intros a b G. destruct (ido <? 2); [apply le_ok, G|].
  destruct (ido =? 2); [apply radb4_last_le; assumption|]. eapply le_bind; [apply radb4_mid_le; eassumption|]. intros c d K. destruct (ido mod 2 =? 1); [apply le_ok, K|apply radb4_last_le; assumption].
Qed.
Lemma zreorder_fwd_le : forall n x x' y y', buf_le f x x' -> buf_le f y y' -> le (buf_le f) (zreorder_fwd n x y) (zreorder_fwd n x' y').
Proof.
  intros n x x' y y' E F. unfold zreorder_fwd. step. eapply le_bind; [unfold for_down; apply le_loop; [|exact F]; intros k u v G; repeat step|]. intros u v G. repeat step.
Qed.
Lemma zreorder_bwd_le : forall n x x' y y', buf_le f x x' -> buf_le f y y' -> le (buf_le f) (zreorder_bwd n x y) (zreorder_bwd n x' y').
Proof.
  intros n x x' y y' E F. unfold zreorder_bwd. step. eapply le_bind; [apply le_for_up; [|exact F]; intros k u v G; repeat step|]. intros u v G. repeat step.
Qed.
Lemma fresh_le : forall n, buf_le f (fresh n) (fresh n).
Proof. intros n. unfold fresh. induction (Z.to_nat n) as [|m IH]; cbn [repeat]; constructor; [exact I|exact IH]. Qed.
Definition setup_le (s : setup (A := A)) (t : setup (A := B)) : Prop := s_N t = s_N s /\ s_Ncvec t = s_Ncvec s /\ s_ifac t = s_ifac s /\ buf_le f (s_twiddle s) (s_twiddle t).
Lemma rffti1_le : forall n wa wa' ifac, buf_le f wa wa' -> le (fun x y => buf_le f (fst x) (fst y) /\ snd y = snd x) (rffti1 ar n wa ifac) (rffti1 br n wa' ifac).
Proof.
  intros n wa wa' ifac W. unfold rffti1. eapply le_bind; [apply le_refl|]. intros [nf ifa] ? <-. cbv zeta.
  eapply le_bind; [apply (le_for_up (fun (x : Z * Z * buf A) (y : Z * Z * buf B) => fst y = fst x /\ buf_le f (snd x) (snd y))); [|split; [reflexivity|exact W]]|].
  - intros k1 [[is l1] u] [p v] [E G]. cbn [fst snd] in E, G. subst p. eapply le_bind; [apply le_refl|]. intros ip ? <-.
    eapply le_bind; [apply (le_for_up (fun (x : Z * Z * buf A) (y : Z * Z * buf B) => fst y = fst x /\ buf_le f (snd x) (snd y))); [|split; [reflexivity|exact G]]|].
    + intros j [[is' ld] u'] [p v'] [E G']. cbn [fst snd] in E, G'. subst p.
      eapply le_bind; [apply (le_loop (fun (x : Z * Z * buf A) (y : Z * Z * buf B) => fst y = fst x /\ buf_le f (snd x) (snd y))); [|split; [reflexivity|exact G']]|].
      * intros ii [[i fi] u2] [p v2] [E G2]. cbn [fst snd] in E, G2. subst p. step. step. apply le_ok. split; [reflexivity|assumption].
      * intros [[i fi] u2] [p v2] [E G2]. cbn [fst snd] in E, G2. subst p. apply le_ok. split; [reflexivity|exact G2].
    + intros [[is' ld] u'] [p v'] [E G']. cbn [fst snd] in E, G'. subst p. apply le_ok. split; [reflexivity|exact G'].
  - intros [[is' ld] u'] [p v'] [E G']. cbn [fst snd] in E, G'. subst p. apply le_ok. split; [exact G'|reflexivity].
Qed.
Lemma new_setup_le : forall n, le (fun x y => match x with Some s => exists t, y = Some t /\ setup_le s t | None => y = None end) (new_setup ar n) (new_setup br n).
Proof.
  intros n. unfold new_setup. cbv zeta. eapply le_bind; [apply rffti1_le, fresh_le|]. intros [wa ifac] [wa' ifac'] [E F]. cbn [fst snd] in E, F. subst ifac'.
  eapply le_bind; [apply le_refl|]. intros nf ? <-. eapply le_bind; [apply le_refl|]. intros m ? <-. apply le_ok. destruct (m =? n); [|reflexivity].
  eexists. split; [reflexivity|]. repeat split. exact E.
Qed.
End Sim.

(* ---- terms ---- *)
Inductive term : Set :=
| In (i : Z) | Add (x y : term) | Sub (x y : term) | Mul (x y : term) | Int (z : Z)
| Two | Mh | Ms | Argh (n : Z) | Cos (x : term) | Sin (x : term).
Definition terms : arith term := mkarith term Add Sub Mul Int Two Mh Ms Argh Cos Sin.
Fixpoint term_eqb (x y : term) : bool :=
  match x, y with
  | In i, In j => i =? j
  | Add a b, Add c d | Sub a b, Sub c d | Mul a b, Mul c d => term_eqb a c && term_eqb b d
  | Int i, Int j => i =? j
  | Two, Two | Mh, Mh | Ms, Ms => true
  | Argh i, Argh j => i =? j
  | Cos a, Cos b | Sin a, Sin b => term_eqb a b
  | _, _ => false
  end.
Lemma term_eqb_eq : forall x y, term_eqb x y = true -> x = y.
Proof.
  induction x; intros [] E; cbn [term_eqb] in E; try discriminate E; try reflexivity; try (apply Z.eqb_eq in E; now subst);
  try (apply andb_true_iff in E as [E F]; f_equal; auto); f_equal; auto.
Qed.
Fixpoint eval {B} (br : arith B) (env : Z -> B) (t : term) : B :=
  match t with
  | In i => env i
  | Add a b => a_add br (eval br env a) (eval br env b)
  | Sub a b => a_sub br (eval br env a) (eval br env b)
  | Mul a b => a_mul br (eval br env a) (eval br env b)
  | Int z => a_int br z | Two => a_two br | Mh => a_mh br | Ms => a_ms br | Argh n => a_argh br n
  | Cos a => a_cos br (eval br env a) | Sin a => a_sin br (eval br env a)
  end.
Lemma eval_hom : forall {B} (br : arith B) env, hom (eval br env) terms br.
Proof. intros. constructor; reflexivity. Qed.
Definition cells_eqb (x : buf term) (y : list term) : bool :=
  (length x =? length y)%nat && forallb (fun p => match fst p with Some a => term_eqb a (snd p) | None => false end) (combine x y).
Lemma cells_eqb_eq : forall x y, cells_eqb x y = true -> x = map Some y.
Proof.
  unfold cells_eqb. intros x y E. apply andb_true_iff in E as [L E]. apply Nat.eqb_eq in L. revert y L E. induction x as [|a x IH]; intros [|b y] L E; try discriminate L; [reflexivity|].
  cbn [combine forallb fst snd] in E. apply andb_true_iff in E as [F E]. destruct a as [a|]; [|discriminate F]. cbn [map]. f_equal; [f_equal; apply term_eqb_eq, F|]. apply IH; [now injection L|exact E].
Qed.
