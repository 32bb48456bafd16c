(** C98: linear transformations of hits in double precision. *)
From Coq Require Import Reals ZArith Bool String List Lia Lra Psatz.
From Flocq Require Import Core BinarySingleNaN.
From Verif Require Import Num HitcoreModel FloatModel MomentSpec FloatArith Bin64Model Bin64Spec Bin64Proofs
  Bin64Props Shell64Model Shell64Spec Shell64Proofs Shell64Props Move64Model Move64Spec Move64Proofs Move64Props
  Linear64Model Linear64Spec Linear64Proofs.
Import ListNotations.
Open Scope R_scope.

Lemma at_most_23 (ks : list DblVar) : NoDup ks -> (List.length ks <= 23)%nat.
Proof.
  intros N. apply (NoDup_incl_length (l' := [Vx; Vy; Vz; Vt; Vpx; Vpy; Vpz; Venergy; Vbx; Vby; Vbz; Vex; Vey; Vez; Vsx; Vsy; Vsz;
    Vpath_length; Vproper_time; Ve_dep; Vcharge; Vmass; Vlocal_weight])); [exact N|].
  intros v _. destruct v; cbn [In]; tauto.
Qed.

Lemma shapes_ok (ks : list DblVar) (m : list (list b64)) h origin :
  Forall (fun row => List.length row = List.length ks /\ Forall usual row) m ->
  forallb (fun row => Nat.eqb (List.length row) (List.length (centred h ks origin))) m = true.
Proof.
  intros F. apply forallb_forall. intros row I. rewrite Forall_forall in F. apply Nat.eqb_eq.
  unfold centred. rewrite map_length. exact (proj1 (F row I)).
Qed.

(** The result is R (V - O) + T + O, each number to within a few units in the last place of the sum of the sizes of
    its terms. *)
Theorem C98_abelian L dot ks m trans origin T O h : good_dot dot -> fits ks m trans origin T O ->
  (forall k, In k ks -> usual (h_dbl (N := B64Num) h k)) ->
  exists h', abelian64 L dot ks m trans origin "" h = (h', AShell ShNone) /\ transformed ks m T O h h'.
Proof.
  intros G [N LR FR [Kt Ko] [Ut Uo] GT GO] U. unfold abelian64. rewrite (shapes_ok ks m h origin FR).
  set (v := centred h ks origin). set (ws := map (fun row => dot row v) m).
  pose proof (put_enough ks ws trans origin h ltac:(unfold ws; rewrite map_length; lia)) as E.
  destruct (put_back h ks ws trans origin) as [h' b] eqn:P. cbn [snd] in E. subst b. cbn.
  exists h'. split; [reflexivity|].
  assert (Eh : h' = fst (put_back h ks ws trans origin)) by (rewrite P; reflexivity). split.
  - intros i k row Ei Er.
    assert (Ew : nth_error ws i = Some (dot row v)) by (apply (map_nth_error (fun r => dot r v)); exact Er).
    pose proof (put_at ks ws trans origin h i k _ N Ei Ew) as Q. rewrite <- Eh in Q.
    rewrite Forall_forall in FR. destruct (FR row (nth_error_In _ _ Er)) as [Lr Ur].
    destruct (row_ok dot G h ks trans origin T O) with (row := row) (k := k) as [F A].
    + pose proof (at_most_23 ks N). lia.
    + exact U.
    + exact Ut.
    + exact Uo.
    + intros j. apply entry_gives; [exact Kt|apply GT].
    + intros j. apply entry_gives; [exact Ko|apply GO].
    + exact Lr.
    + exact Ur.
    + unfold of_hit. change (h_dbl h' k) with (fg h' k). rewrite Q. rewrite pow_m53. split; [exact F|exact A].
  - rewrite Eh. split; [intros w W; exact (put_other ks ws trans origin h w W)|apply put_int].
Qed.

(** With the energy as mass shell variable the hit is on shell afterwards. *)
Theorem C98_shell L dot ks m trans origin h h1 : accurate L ->
  abelian64 L dot ks m trans origin "" h = (h1, AShell ShNone) ->
  (forall v, In v [Vpx; Vpy; Vpz; Vmass] -> moderate (h_dbl (N := B64Num) h1 v)) ->
  exists h', abelian64 L dot ks m trans origin "energy" h = (h', AShell ShTrue) /\ others_kept [Venergy] h1 h' /\
    0 <= of_hit h' Venergy /\ Rabs (esq h' - (psq h' + msq h')) <= 40 * / 2 ^ 53 * (psq h' + msq h').
Proof.
  intros A E M. unfold abelian64 in *. destruct (forallb _ m); [|discriminate].
  destruct (put_back h ks _ trans origin) as [h2 [|]]; [|discriminate]. injection E as ->.
  destruct (C92_energy L h1 A M) as (h' & E' & K). exists h'. rewrite E'. split; [reflexivity|exact K].
Qed.

(** A row of the wrong length is a ValueError and changes nothing; too few rows are an IndexError. *)
Theorem C98_shape L dot ks m trans origin ms h :
  (Exists (fun row => List.length row <> List.length ks) m -> abelian64 L dot ks m trans origin ms h = (h, AValueError)) /\
  (Forall (fun row => List.length row = List.length ks) m -> (List.length m < List.length ks)%nat ->
     snd (abelian64 L dot ks m trans origin ms h) = AIndexError).
Proof.
  split.
  - intros X. unfold abelian64. replace (forallb _ m) with false; [reflexivity|]. symmetry. apply not_true_is_false. intros F.
    rewrite forallb_forall in F. apply Exists_exists in X. destruct X as (row & I & D). apply D.
    specialize (F row I). apply Nat.eqb_eq in F. unfold centred in F. rewrite map_length in F. exact F.
  - intros F Lt. unfold abelian64. replace (forallb _ m) with true.
    + pose proof (put_short ks (map (fun row => dot row (centred h ks origin)) m) trans origin h) as Q.
      rewrite map_length in Q. specialize (Q Lt). destruct (put_back h ks _ trans origin) as [h2 b]. cbn [snd] in Q. subst b. reflexivity.
    + symmetry. apply forallb_forall. intros row I. rewrite Forall_forall in F. apply Nat.eqb_eq. unfold centred. rewrite map_length. exact (F row I).
Qed.

(** Every hit of a bunch is transformed, each by itself. *)
Theorem C98_bunch L dot ks m trans origin T O hs : good_dot dot -> fits ks m trans origin T O ->
  Forall (fun h => forall k, In k ks -> usual (h_dbl (N := B64Num) h k)) hs ->
  exists hs', abelian_all64 L dot ks m trans origin "" hs = (hs', None) /\ Forall2 (transformed ks m T O) hs hs'.
Proof.
  intros G F. induction hs as [|h r IH]; intros U; [exists []; split; [reflexivity|constructor]|].
  inversion U as [|? ? Uh Ur]; subst. destruct (IH Ur) as (r' & E & H). destruct (C98_abelian L dot ks m trans origin T O h G F Uh) as (h' & E' & H').
  exists (h' :: r'). cbn [abelian_all64]. rewrite E', E. split; [reflexivity|now constructor].
Qed.

(** A transformation that raised. *)
Definition raised (r : ARes) : Prop :=
  match r with AValueError | AIndexError | AShell (ShErr _) => True | AShell _ => False end.

(** A bunch is transformed hit by hit from the front. No exception: every hit was transformed without one.
    An exception: it is that of the first hit that raised one; the hits before it have been
    transformed, and those after it are as they were. *)
Theorem C98_stops L dot ks m trans origin ms hs :
  let one h h' r := abelian64 L dot ks m trans origin ms h = (h', r) in
  let fine h h' := exists r, one h h' r /\ ~ raised r in
  match abelian_all64 L dot ks m trans origin ms hs with
  | (hs', None) => Forall2 fine hs hs'
  | (hs', Some e) => exists before before' h h' after, hs = (before ++ h :: after)%list /\ hs' = (before' ++ h' :: after)%list /\
      Forall2 fine before before' /\ one h h' e /\ raised e
  end.
Proof.
  intros one fine. induction hs as [|h r IH]; [constructor|]. cbn [abelian_all64].
  destruct (abelian64 L dot ks m trans origin ms h) as [h' a] eqn:E.
  assert (Go : ~ raised a -> let '(r', e) := abelian_all64 L dot ks m trans origin ms r in
     match (h' :: r', e) with
     | (hs', None) => Forall2 fine (h :: r) hs'
     | (hs', Some e) => exists before before' h0 h0' after, h :: r = (before ++ h0 :: after)%list /\ hs' = (before' ++ h0' :: after)%list /\
        Forall2 fine before before' /\ one h0 h0' e /\ raised e
     end).
  { intros N. destruct (abelian_all64 L dot ks m trans origin ms r) as [r' [e|]].
    - destruct IH as (b & b' & x & x' & af & -> & -> & F & O & X). exists (h :: b), (h' :: b'), x, x', af.
      repeat split; [|exact O|exact X]. constructor; [now exists a|exact F].
    - constructor; [now exists a|exact IH]. }
  assert (Stop : raised a -> exists before before' h0 h0' after, h :: r = (before ++ h0 :: after)%list /\ h' :: r = (before' ++ h0' :: after)%list /\
        Forall2 fine before before' /\ one h0 h0' a /\ raised a).
  { intros X. exists [], [], h, h', r. repeat split; [constructor|exact E|exact X]. }
  destruct a as [| |[| | |e]]; try (apply Stop; exact I);
    (specialize (Go (fun x => x)); destruct (abelian_all64 L dot ks m trans origin ms r) as [r' e]; exact Go).
Qed.

(** Adding the products up from the left is one scalar product to which this applies. *)
Theorem C98_plain : good_dot dot_plain.
Proof. exact plain_good. Qed.

(** ---- the identity --------------------------------------------------------------------- *)
Lemma add_exact (x y : b64) : fin x = true -> fin y = true -> val x = 0 \/ val y = 0 ->
  fin (fadd x y) = true /\ val (fadd x y) = val x + val y.
Proof.
  intros Fx Fy Z. pose proof (Bplus_correct prec64 emax64 _ _ mode_NE x y Fx Fy) as C.
  assert (E : round radix2 (SpecFloat.fexp prec64 emax64) (round_mode mode_NE) (val x + val y) = val x + val y).
  { destruct Z as [-> | ->]; [rewrite Rplus_0_l|rewrite Rplus_0_r]; apply round_generic; auto with typeclass_instances; apply generic_format_B2R. }
  rewrite E in C. rewrite Rlt_bool_true in C.
  - destruct C as (C1 & C2 & _). split; [exact C2|exact C1].
  - destruct Z as [-> | ->]; [rewrite Rplus_0_l|rewrite Rplus_0_r]; apply abs_B2R_lt_emax.
Qed.
Lemma mul_exact (x y : b64) : fin x = true -> fin y = true -> val x = 0 \/ val x = 1 ->
  fin (fmul x y) = true /\ val (fmul x y) = val x * val y.
Proof.
  intros Fx Fy Z. pose proof (Bmult_correct prec64 emax64 _ _ mode_NE x y) as C.
  assert (E : round radix2 (SpecFloat.fexp prec64 emax64) (round_mode mode_NE) (val x * val y) = val x * val y).
  { destruct Z as [-> | ->]; [rewrite Rmult_0_l; apply round_0|rewrite Rmult_1_l; apply round_generic; [|apply generic_format_B2R]]; auto with typeclass_instances. }
  rewrite E in C. rewrite Rlt_bool_true in C.
  - destruct C as (C1 & C2 & _). split; [|exact C1]. change (fin (Bmult mode_NE x y) = true). rewrite C2, Fx, Fy. reflexivity.
  - destruct Z as [-> | ->]; [rewrite Rmult_0_l, Rabs_R0; apply bpow_gt_0|rewrite Rmult_1_l; apply abs_B2R_lt_emax].
Qed.
Lemma sub_zero (x : b64) : fin x = true -> fin (fsub x fzero) = true /\ val (fsub x fzero) = val x.
Proof.
  intros Fx. pose proof (Bminus_correct prec64 emax64 _ _ mode_NE x fzero Fx eq_refl) as C.
  change (val fzero) with 0 in C. rewrite Rminus_0_r in C.
  assert (E : round radix2 (SpecFloat.fexp prec64 emax64) (round_mode mode_NE) (val x) = val x)
    by (apply round_generic; auto with typeclass_instances; apply generic_format_B2R).
  rewrite E in C. rewrite Rlt_bool_true in C by apply abs_B2R_lt_emax. destruct C as (C1 & C2 & _). split; [exact C2|exact C1].
Qed.

Lemma dot_unit i : forall (f : nat -> b64) n lo s,
  (forall j, fin (f j) = true) -> fin s = true ->
  (lo <= i < lo + n)%nat /\ val s = 0 \/ (i < lo)%nat ->
  let z := dot_from s (map (fun j => if Nat.eqb i j then fone else fzero) (seq lo n)) (map f (seq lo n)) in
  fin z = true /\ val z = if Nat.ltb i lo then val s else val (f i).
Proof.
  intros f n. induction n as [|n IH]; intros lo s Ff Fs H; cbv zeta.
  { cbn [seq map dot_from]. split; [exact Fs|]. destruct H as [[H _]|H]; [lia|]. apply Nat.ltb_lt in H. rewrite H. reflexivity. }
  cbn [seq map dot_from]. destruct one_val as [F1 V1].
  assert (M : fin (fmul (if Nat.eqb i lo then fone else fzero) (f lo)) = true /\
              val (fmul (if Nat.eqb i lo then fone else fzero) (f lo)) = if Nat.eqb i lo then val (f lo) else 0).
  { destruct (Nat.eqb i lo).
    - destruct (mul_exact fone (f lo) F1 (Ff lo)) as [A B]; [right; exact V1|]. split; [exact A|]. rewrite B, V1. ring.
    - destruct (mul_exact fzero (f lo) eq_refl (Ff lo)) as [A B]; [left; reflexivity|]. split; [exact A|]. rewrite B.
      change (val fzero) with 0. ring. }
  destruct M as [Fm Vm]. destruct (add_exact s _ Fs Fm) as [Fa Va].
  { rewrite Vm. destruct H as [[_ H]|H]; [now left|right]. destruct (Nat.eqb_spec i lo); [lia|reflexivity]. }
  rewrite Vm in Va.
  destruct (Nat.eqb_spec i lo) as [Ei|Ni].
  - subst lo. destruct (IH (S i) _ Ff Fa) as [Fz Vz]; [right; lia|]. split; [exact Fz|].
    rewrite (proj2 (Nat.ltb_ge i i)) by lia. rewrite (proj2 (Nat.ltb_lt i (S i))) in Vz by lia.
    destruct H as [[_ H]|H]; [|lia]. eapply eq_trans; [exact Vz|]. rewrite Va, H. ring.
  - destruct (IH (S lo) _ Ff Fa) as [Fz Vz]; [destruct H as [[H H0]|H]; [left; split; [lia|rewrite Va, H0; ring]|right; lia]|].
    split; [exact Fz|]. eapply eq_trans; [exact Vz|].
    destruct (Nat.ltb_spec i lo), (Nat.ltb_spec i (S lo)); try lia; [rewrite Va; ring|reflexivity].
Qed.

Lemma map_index {A B} (g : A -> B) d : forall l, map g l =
  map (fun j => match nth_error l j with Some q => g q | None => d end) (seq 0 (List.length l)).
Proof.
  induction l as [|a l IH]; [reflexivity|]. cbn [List.length seq map nth_error]. f_equal. rewrite IH at 1.
  rewrite <- seq_shift, map_map. reflexivity.
Qed.

(** The identity, with nothing added, leaves every number as it was. *)
Theorem C98_identity L ks h : let n := List.length ks in NoDup ks ->
  (forall k, In k ks -> finite (h_dbl (N := B64Num) h k) = true) ->
  exists h', abelian64 L dot_plain ks (map (unit_row fone fzero n) (seq 0 n)) [] [] "" h = (h', AShell ShNone) /\
    (forall v, of_hit h' v = of_hit h v) /\ h_int (N := B64Num) h' = h_int (N := B64Num) h.
Proof.
  intros n N F. unfold abelian64. set (m := map (unit_row fone fzero n) (seq 0 n)).
  assert (S : forallb (fun row => Nat.eqb (List.length row) (List.length (centred h ks []))) m = true).
  { apply forallb_forall. intros row I. apply in_map_iff in I. destruct I as (i & <- & _). apply Nat.eqb_eq.
    unfold unit_row, centred. rewrite !map_length, seq_length. reflexivity. }
  rewrite S. set (v := centred h ks []). set (ws := map (fun row => dot_plain row v) m).
  assert (Lw : List.length ws = n) by (unfold ws, m; rewrite !map_length, seq_length; reflexivity).
  pose proof (put_enough ks ws [] [] h ltac:(rewrite Lw; apply le_n)) as E.
  destruct (put_back h ks ws [] []) as [h' b] eqn:P. cbn [snd] in E. subst b. cbn.
  assert (Eh : h' = fst (put_back h ks ws [] [])) by (rewrite P; reflexivity).
  exists h'. split; [reflexivity|]. split; [|rewrite Eh; apply put_int].
  intros k. unfold of_hit. change (h_dbl h' k) with (fg h' k). change (h_dbl h k) with (fg h k).
  destruct (in_dec dblvar_eq_dec k ks) as [I|O]; [|rewrite Eh, put_other by exact O; reflexivity].
  apply In_nth_error in I. destruct I as [i Ei]. assert (Li : (i < n)%nat) by (apply nth_error_Some; congruence).
  assert (Ew : nth_error ws i = Some (dot_plain (unit_row fone fzero n i) v)).
  { unfold ws, m. rewrite map_map. apply (map_nth_error (fun j => dot_plain (unit_row fone fzero n j) v)).
    rewrite (nth_error_nth' _ 0%nat) by (rewrite seq_length; exact Li). now rewrite seq_nth. }
  rewrite Eh, (put_at ks ws [] [] h i k _ N Ei Ew). cbn [entry64 find]. change (entry64 [] k) with fzero.
  set (f := fun j => match nth_error ks j with Some q => fsub (fg h q) fzero | None => fzero end).
  assert (Ev : v = @map nat b64 f (seq 0 n)).
  { unfold v, centred. exact (map_index (fun q => fsub (fg h q) fzero) fzero ks). }
  assert (Ff : forall j, fin (f j) = true).
  { intros j. unfold f. destruct (nth_error ks j) as [q|] eqn:Q; [|reflexivity]. apply sub_zero. apply F, (nth_error_In _ _ Q). }
  destruct (dot_unit i f n 0 fzero Ff eq_refl) as [Fz Vz]; [left; split; [lia|reflexivity]|].
  fold (unit_row fone fzero n i) in Fz, Vz. rewrite <- Ev in Fz, Vz. fold (dot_plain (unit_row fone fzero n i) v) in Fz, Vz.
  cbn [Nat.ltb Nat.leb] in Vz.
  destruct (add_exact _ fzero Fz eq_refl) as [F1 V1]; [right; reflexivity|].
  destruct (add_exact _ fzero F1 eq_refl) as [_ V2]; [right; reflexivity|].
  eapply eq_trans; [exact V2|]. change (val fzero) with 0. rewrite Rplus_0_r. eapply eq_trans; [exact V1|].
  change (val fzero) with 0. rewrite Rplus_0_r. eapply eq_trans; [exact Vz|]. unfold f. rewrite Ei.
  apply sub_zero. apply F, (nth_error_In _ _ Ei).
Qed.

(** Not about a far origin: x = 1 mm, the identity about 2^60 mm gives 0. *)
Theorem C98_origin_refuted : let far := b64_of_Z (2 ^ 60) in
  let h' := fst (abelian64 plain dot_plain [Vx] [[fone]] [] [(Vx, far)] "" at_one) in
  feq (h_dbl (N := B64Num) at_one Vx) fone = true /\ feq (h_dbl (N := B64Num) h' Vx) fzero = true.
Proof. vm_compute. split; reflexivity. Qed.

(** Nor does the inverse matrix undo a transformation exactly: 49 times, then a 49th of, 1 mm is not 1 mm. *)
Theorem C98_inverse_refuted : let k := b64_of_Z 49 in
  let h1 := fst (abelian64 plain dot_plain [Vx] [[k]] [] [] "" at_one) in
  let h2 := fst (abelian64 plain dot_plain [Vx] [[fdiv fone k]] [] [] "" h1) in
  feq (h_dbl (N := B64Num) h2 Vx) (h_dbl (N := B64Num) at_one Vx) = false.
Proof. vm_compute. reflexivity. Qed.

(** The hypotheses hold: a drift about a beam axis at x = 3 mm, moved on by 5 mm, for a muon at x = 10 mm. *)
Definition drift : list (list b64) := [[fone; half64]; [fzero; fone]].
Definition muon : FHit := mkHit (N := B64Num)
  (fun v => match v with Vx => b64_of_Z 10 | Vpx => b64_of_Z 7 | Vpz => b64_of_Z 200 | Vmass => b64_of_Z 105 | _ => fzero end)
  (fun _ => 0%Z).
Definition step5 (k : DblVar) : R := match k with Vx => 5 | _ => 0 end.
Definition axis3 (k : DblVar) : R := match k with Vx => 3 | _ => 0 end.
Example C98_ex : fits [Vx; Vpx] drift [(Vx, b64_of_Z 5)] [(Vx, b64_of_Z 3)] step5 axis3 /\
  (forall k, In k [Vx; Vpx] -> usual (h_dbl (N := B64Num) muon k)) /\
  linear muon [Vx; Vpx] [fone; half64] step5 axis3 Vx = 18.5.
Proof.
  assert (Z1 : forall z, (Z.abs z <= 2 ^ 53)%Z -> usual (b64_of_Z z)).
  { intros z H. apply ordinary_scaled. destruct (ofZ_exact z H) as [F V]. split; [exact F|]. rewrite V.
    destruct (Z.eq_dec z 0) as [-> |N]; [now left|right]. split.
    - apply Rle_trans with 1; [change 1 with (pow2 0); apply bpow_le; lia|]. rewrite <- abs_IZR. apply IZR_le. lia.
    - apply Rle_trans with (pow2 53); [now apply int_small|]. apply bpow_le. lia. }
  assert (V : forall z, (Z.abs z <= 2 ^ 53)%Z -> value (b64_of_Z z) = IZR z) by (intros z H; exact (proj2 (ofZ_exact z H))).
  assert (Eh : B2SF half64 = SpecFloat.S754_finite false 4503599627370496 (-53)) by (vm_compute; reflexivity).
  assert (Vh : value half64 = / 2).
  { rewrite (val_SF _ _ Eh). unfold SF2R, F2R; cbn [Fnum Fexp cond_Zopp]. simpl bpow. lra. }
  assert (U0 : usual fzero) by (split; [reflexivity|now left]).
  assert (U1 : usual fone) by exact (Z1 1%Z ltac:(lia)).
  assert (Uh : usual half64).
  { split; [transitivity (is_finite_SF (B2SF half64)); [symmetry; apply is_finite_SF_B2SF|rewrite Eh; reflexivity]|].
    right. rewrite Vh, Rabs_right by lra. split.
    - apply Rle_trans with (/ 2 ^ 1); [apply Rinv_le_contravar; [apply pow_lt; lra|apply Rle_pow; [lra|lia]]|simpl; lra].
    - apply Rle_trans with 1; [lra|apply pow_R1_Rle; lra]. }
  split; [|split].
  - constructor.
    + constructor; [intros [E|[]]; discriminate|]. constructor; [intros []|constructor].
    + reflexivity.
    + assert (Fn : Forall usual []) by constructor. unfold drift.
      constructor; [split; [reflexivity|constructor; [exact U1|constructor; [exact Uh|exact Fn]]]|].
      constructor; [split; [reflexivity|constructor; [exact U0|constructor; [exact U1|exact Fn]]]|constructor].
    + split; (constructor; [intros []|constructor]).
    + split; (constructor; [cbn [snd]; apply Z1; lia|constructor]).
    + intros k. destruct k; [left; exists (b64_of_Z 5); split; [now left|symmetry; exact (V 5%Z ltac:(lia))]|..];
        (right; split; [intros [E|[]]; discriminate|reflexivity]).
    + intros k. destruct k; [left; exists (b64_of_Z 3); split; [now left|symmetry; exact (V 3%Z ltac:(lia))]|..];
        (right; split; [intros [E|[]]; discriminate|reflexivity]).
  - intros k [<-|[<-|[]]]; cbn [h_dbl muon]; apply Z1; lia.
  - unfold linear, of_hit. cbn [map inner step5 axis3 h_dbl muon]. rewrite Vh.
    rewrite (V 10%Z), (V 7%Z) by lia. change (value fone) with (value (b64_of_Z 1)). rewrite (V 1%Z) by lia. lra.
Qed.

(** One row for two variables: the first hit is left with its x changed, the second is not reached. *)
Example C98_stops_ex L : exists h', abelian_all64 L dot_plain [Vx; Vpx] [[fone; half64]] [] [] "" [muon; muon] = ([h'; muon], Some AIndexError) /\
  B2SF (h_dbl (N := B64Num) h' Vx) = B2SF (fadd (b64_of_Z 13) half64) /\ h_dbl (N := B64Num) h' Vpx = h_dbl (N := B64Num) muon Vpx.
Proof. eexists. split; [reflexivity|]. split; [vm_compute; reflexivity|reflexivity]. Qed.

Print Assumptions C98_abelian.
Print Assumptions C98_shell.
Print Assumptions C98_shape.
Print Assumptions C98_bunch.
Print Assumptions C98_stops.
Print Assumptions C98_plain.
Print Assumptions C98_identity.
Print Assumptions C98_origin_refuted.
Print Assumptions C98_inverse_refuted.
