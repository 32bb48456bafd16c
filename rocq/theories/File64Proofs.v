From Coq Require Import Reals ZArith Bool String List Lia Lra Psatz.
From Flocq Require Import Core BinarySingleNaN.
From Verif Require Import Num HitcoreModel TableModel IOModel IOSpec FloatModel MomentSpec FloatArith Bin64Model Bin64Spec Bin64Proofs
  Shell64Model Shell64Spec Shell64Proofs File64Model File64Spec File64Round.
Import ListNotations.
Open Scope R_scope.

Notation rx := (round radix2 (FLX_exp prec64) ZnearestE).

Lemma tame_scaled x : tame x <-> fin x = true /\ scaled 250 (val x).
Proof.
  unfold tame, scaled. rewrite pow_nat64, <- bpow_opp. change (- Z.of_nat 250)%Z with (-250)%Z.
  change (Z.of_nat 250) with 250%Z. reflexivity.
Qed.

(** Numbers in the middle of the range are rounded as if there were no limits. *)
Lemma rnd_rx x e : scaled e x -> (e <= 900)%Z -> rnd x = rx x.
Proof.
  intros [-> |[H _]] E.
  - rewrite !round_0; auto with typeclass_instances.
  - apply round_FLT_FLX. eapply Rle_trans; [|exact H]. apply bpow_le. unfold SpecFloat.emin, prec64, emax64. lia.
Qed.

Lemma format_rx (x : b64) : scaled 900 (val x) -> generic_format radix2 (FLX_exp prec64) (val x).
Proof. intros _. apply generic_format_FLX_FLT with (emin := SpecFloat.emin prec64 emax64). apply generic_format_B2R. Qed.

(** A unit: positive and not extreme. *)
Definition good_unit (c : b64) : Prop := fin c = true /\ 0 < val c /\ scaled 40 (val c).

Definition conv (c x : b64) : b64 := fmul (fdiv x c) c.

Lemma conv_zero c s : good_unit c -> conv c (B754_zero s) = B754_zero s.
Proof.
  intros (F & P & _). unfold conv. destruct c as [sc|sc| |sc m e Hb]; try discriminate F.
  - simpl in P. lra.
  - destruct sc; [|destruct s; reflexivity]. exfalso. simpl in P. unfold F2R in P. cbn [Fnum Fexp] in P.
    pose proof (bpow_gt_0 radix2 e). assert (IZR (Zneg m) < 0) by (apply IZR_lt; reflexivity).
    change (IZR (cond_Zopp true (Zpos m))) with (IZR (Zneg m)) in P. nra.
Qed.

Lemma conv_val c (x : b64) : good_unit c -> fin x = true -> scaled 310 (val x) ->
  fin (conv c x) = true /\ val (conv c x) = rx (rx (val x / val c) * val c) /\ like 2 (val x) (val (conv c x)).
Proof.
  intros (Fc & Pc & Sc) Fx Sx. assert (Nc : val c <> 0) by lra.
  destruct (div_like x c 0 0 (val x) (val c) 310 40 Fx (like_refl _) (like_refl _) Nc Sx Sc) as (Fd & Kd & Sd); try lia.
  assert (Ed : val (fdiv x c) = rx (val x / val c)).
  { pose proof (Bdiv_correct prec64 emax64 _ _ mode_NE x c Nc) as C.
    rewrite Rlt_bool_true in C.
    2:{ apply (rnd_bound _ 350); [lia|]. apply scaled_abs; [lia|exact Sd]. }
    destruct C as (C1 & _). rewrite C1. apply (rnd_rx _ 350); [exact Sd|lia]. }
  assert (Sd1 : scaled 351 (val (fdiv x c))) by (apply (like_scaled 1 350 (val x / val c)); [apply small_n; lia|exact Kd|exact Sd]).
  pose proof (scaled_mul _ _ _ _ Sd1 Sc) as Sm.
  destruct (mul_like (fdiv x c) c 0 0 _ _ 351 40 Fd Fc (like_refl _) (like_refl _) Sd1 Sc) as (Fm & Km); try lia.
  split; [exact Fm|]. split.
  - unfold conv. pose proof (Bmult_correct prec64 emax64 _ _ mode_NE (fdiv x c) c) as C.
    rewrite Rlt_bool_true in C.
    2:{ apply (rnd_bound _ 391); [lia|]. apply scaled_abs; [lia|exact Sm]. }
    destruct C as (C1 & _). rewrite C1, <- Ed. apply (rnd_rx _ 391); [exact Sm|lia].
  - apply (like_trans 1 1 (val x) (val (fdiv x c) * val c)); [|exact Km].
    replace (val x) with (val x / val c * val c) by (field; exact Nc). apply (like_mul 1 0); [exact Kd|apply like_refl].
Qed.

Lemma rx_opp x : rx (- x) = - rx x.
Proof. apply round_NE_opp. Qed.

Lemma strict (x : b64) : fin x = true -> val x <> 0 -> is_finite_strict x = true.
Proof. intros F N. destruct x; try discriminate F; [exfalso; apply N; reflexivity|reflexivity]. Qed.

Lemma conv_twice c (x : b64) : good_unit c -> fin x = true -> scaled 300 (val x) -> conv c (conv c x) = conv c x.
Proof.
  intros G Fx Sx. destruct (Req_dec (val x) 0) as [Z|N].
  - destruct x as [s|s| |s m e Hb]; try discriminate Fx.
    + now rewrite !conv_zero.
    + exfalso. simpl in Z. apply eq_0_F2R in Z. cbn in Z. destruct s; discriminate Z.
  - destruct (conv_val c x G Fx) as (F1 & V1 & K1); [apply (scaled_le 300); [lia|exact Sx]|].
    assert (S1 : scaled 301 (val (conv c x))) by (apply (like_scaled 2 300 (val x)); [apply small_n; lia|exact K1|exact Sx]).
    destruct (conv_val c (conv c x) G F1) as (F2 & V2 & K2); [apply (scaled_le 301); [lia|exact S1]|].
    assert (N1 : val (conv c x) <> 0).
    { destruct K1 as (k & Kn & ->). apply near_pos in Kn. apply Rmult_integral_contrapositive. split; [exact N|lra]. }
    assert (N2 : val (conv c (conv c x)) <> 0).
    { destruct K2 as (k & Kn & ->). apply near_pos in Kn. apply Rmult_integral_contrapositive. split; [exact N1|lra]. }
    apply B2R_inj; [now apply strict|now apply strict|]. rewrite V2, V1. destruct G as (_ & Pc & Sc).
    assert (Fr : generic_format radix2 (FLX_exp prec64) (val x)) by (apply format_rx, (scaled_le 300); [lia|exact Sx]).
    assert (Fc : generic_format radix2 (FLX_exp prec64) (val c)) by (apply format_rx, (scaled_le 40); [lia|exact Sc]).
    destruct (Rlt_or_le 0 (val x)) as [P|P].
    + apply (cycle_twice prec64 (val x) (val c) Fr Fc P Pc).
    + pose proof (cycle_twice prec64 (- val x) (val c) (generic_format_opp _ _ _ Fr) Fc ltac:(lra) Pc) as E. cbv zeta in E.
      unfold Rdiv in *. rewrite <- !Ropp_mult_distr_l, !rx_opp, <- !Ropp_mult_distr_l, !rx_opp, <- !Ropp_mult_distr_l, !rx_opp in E.
      rewrite <- !Ropp_mult_distr_l, !rx_opp in E. lra.
Qed.

(** The unit of xboa. *)
Lemma conv_one (x : b64) : fin x = true -> scaled 300 (val x) -> conv fone x = x.
Proof.
  intros Fx Sx. destruct one_val as [F1 V1].
  assert (G : good_unit fone).
  { split; [exact F1|]. rewrite V1. split; [lra|]. right. rewrite Rabs_R1. split.
    - change 1 with (pow2 0). apply bpow_le. lia.
    - change 1 with (pow2 0) at 1. apply bpow_le. lia. }
  destruct (Req_dec (val x) 0) as [Z|N].
  - destruct x as [s|s| |s m e Hb]; try discriminate Fx.
    + now apply conv_zero.
    + exfalso. simpl in Z. apply eq_0_F2R in Z. cbn in Z. destruct s; discriminate Z.
  - assert (S1 : scaled 310 (val x)) by (apply (scaled_le 300); [lia|exact Sx]).
    destruct (conv_val fone x G Fx S1) as (Fx1 & Vx1 & _).
    assert (E : val (conv fone x) = val x).
    { rewrite Vx1, V1. unfold Rdiv. rewrite Rinv_1, !Rmult_1_r.
      assert (Fr : rx (val x) = val x).
      { apply round_generic; auto with typeclass_instances. apply format_rx, (scaled_le 300); [lia|exact Sx]. }
      now rewrite !Fr. }
    apply B2R_inj; [apply strict; [exact Fx1|now rewrite E]|now apply strict|exact E].
Qed.

Lemma trunc_int z : (Z.abs z <= 2 ^ 53)%Z -> Btrunc (fdiv (b64_of_Z z) fone) = z.
Proof.
  intros H. destruct (ofZ_exact z H) as [F V]. destruct one_val as [F1 V1].
  assert (E : val (fdiv (b64_of_Z z) fone) = IZR z).
  { assert (Nc : val fone <> 0) by lra.
    pose proof (Bdiv_correct prec64 emax64 _ _ mode_NE (b64_of_Z z) fone Nc) as C. rewrite V, V1 in C.
    replace (IZR z / 1) with (val (b64_of_Z z)) in C by (rewrite V; field).
    assert (Er : rnd (val (b64_of_Z z)) = val (b64_of_Z z)).
    { apply round_generic; [auto with typeclass_instances|apply generic_format_B2R]. }
    rewrite Rlt_bool_true in C.
    - destruct C as (C1 & _). rewrite C1. etransitivity; [exact Er|exact V].
    - apply (rnd_bound _ 53); [lia|]. rewrite V. now apply int_small. }
  apply eq_IZR. rewrite (Btrunc_correct prec64 emax64 _), E. apply round_generic; [auto with typeclass_instances|].
  apply generic_format_FIX. exists (Float radix2 z 0); [|reflexivity]. unfold F2R. cbn. ring.
Qed.

(** The unit of a number in a file. *)
Definition unit_of (fmt : string) (v : DblVar) : option b64 :=
  if existsb (fun w => if dblvar_eq_dec v w then true else false) (same_unit fmt) then Some fone
  else if contains fmt "icool" then
    match v with
    | Vt => Some (b64_of_Z 1000000000)
    | Vx | Vy | Vz | Vpx | Vpy | Vpz => Some (b64_of_Z 1000)
    | Vbx | Vby | Vbz => if String.eqb fmt "icool_for009" then Some (fdiv fone (b64_of_Z 1000)) else None
    | _ => None
    end
  else match v with Vpx | Vpy | Vpz => if String.eqb fmt "mars_1" then Some (b64_of_Z 1000) else None | _ => None end.

Lemma int_unit z : (1 <= z <= 2 ^ 40)%Z -> good_unit (b64_of_Z z).
Proof.
  intros H. destruct (ofZ_exact z) as [F V]; [lia|]. split; [exact F|]. rewrite V. split; [apply IZR_lt; lia|].
  right. rewrite Rabs_right by (apply Rle_ge, IZR_le; lia). split.
  - apply Rle_trans with 1; [change 1 with (pow2 0); apply bpow_le; lia|]. apply IZR_le. lia.
  - change (pow2 40) with (IZR (2 ^ 40)). apply IZR_le. lia.
Qed.
Lemma div_unit a b : (1 <= a <= 2 ^ 38)%Z -> (1 <= b <= 2 ^ 38)%Z -> (a <= 2 ^ 30 * b)%Z -> (b <= 2 ^ 30 * a)%Z ->
  good_unit (fdiv (b64_of_Z a) (b64_of_Z b)).
Proof.
  intros Ha Hb H1 H2. destruct (int_unit a) as (Fa & Pa & Sa); [lia|]. destruct (int_unit b) as (Fb & Pb & Sb); [lia|].
  destruct (ofZ_exact a) as [_ Va]; [lia|]. destruct (ofZ_exact b) as [_ Vb]; [lia|].
  destruct (div_like (b64_of_Z a) (b64_of_Z b) 0 0 _ _ 40 40 Fa (like_refl _) (like_refl _) ltac:(lra) Sa Sb) as (F & K & _); try lia.
  split; [exact F|]. assert (Q : pow2 (-30) <= val (b64_of_Z a) / val (b64_of_Z b) <= pow2 30).
  { rewrite Va, Vb in *. assert (Pq : 0 < / IZR b) by (now apply Rinv_0_lt_compat).
    assert (C1 : IZR a <= pow2 30 * IZR b) by (change (pow2 30) with (IZR (2 ^ 30)); rewrite <- mult_IZR; apply IZR_le; lia).
    assert (C2 : IZR b <= pow2 30 * IZR a) by (change (pow2 30) with (IZR (2 ^ 30)); rewrite <- mult_IZR; apply IZR_le; lia).
    split; apply Rmult_le_reg_r with (IZR b); try exact Pb; unfold Rdiv; rewrite ?Rmult_assoc, Rinv_l, Rmult_1_r by lra; [|exact C1].
    change (-30)%Z with (- (30))%Z. rewrite bpow_opp.
    apply Rmult_le_reg_l with (pow2 30); [apply bpow_gt_0|]. rewrite <- Rmult_assoc, Rinv_r, Rmult_1_l by (apply Rgt_not_eq, bpow_gt_0). exact C2. }
  set (q := val (b64_of_Z a) / val (b64_of_Z b)) in *. pose proof (bpow_gt_0 radix2 (-30)).
  destruct K as (k & Kn & Ek). rewrite Ek. pose proof (near_pos _ _ Kn). split; [apply Rmult_lt_0_compat; lra|].
  apply (scaled_le 31); [lia|]. apply (scaled_near 30 1); [apply small_n; lia| |exact Kn].
  right. rewrite Rabs_right by lra. exact Q.
Qed.
Lemma unit_good fmt v c : unit_of fmt v = Some c -> good_unit c.
Proof.
  unfold unit_of. intros E.
  assert (G1 : good_unit fone) by (apply (int_unit 1); lia).
  assert (G2 : good_unit (b64_of_Z 1000)) by (apply int_unit; lia).
  assert (G3 : good_unit (b64_of_Z 1000000000)) by (apply int_unit; lia).
  assert (G4 : good_unit (fdiv fone (b64_of_Z 1000))) by (apply (div_unit 1 1000); lia).
  destruct (existsb _ _); [injection E as <-; exact G1|].
  destruct (contains fmt "icool").
  - destruct v; try discriminate E; try (injection E as <-; assumption); destruct (String.eqb fmt "icool_for009"); try discriminate E;
      injection E as <-; exact G4.
  - destruct v; try discriminate E; destruct (String.eqb fmt "mars_1"); try discriminate E; injection E as <-; exact G2.
Qed.
Lemma c_light_good : good_unit c_light64.
Proof. apply (div_unit 299792458 1000000); lia. Qed.

(** The hit as far as it is in the line. *)
Definition in_line (fmt : string) (h r : FHit) : Prop :=
  (forall v, v <> Venergy -> (fmt = "mars_1"%string -> v <> Vt) ->
     fg r v = match unit_of fmt v with Some c => conv c (fg h v) | None => fg (hit_new (N := B64Num)) v end) /\
  (fmt = "mars_1"%string -> fg r Vt = fdiv (conv (b64_of_Z 10) (fmul (fg h Vt) c_light64)) c_light64) /\
  (forall i, i <> Ipid -> h_int (N := B64Num) r i =
     if existsb (fun j => if intvar_eq_dec i j then true else false) (ints_in_file fmt) then h_int (N := B64Num) h i else 0%Z).

Lemma line_ok fmt h n : In fmt text_formats -> file_pid fmt (h_int (N := B64Num) h Ipid) = Some n -> (Z.abs n <= 2 ^ 53)%Z ->
  (forall i, (Z.abs (h_int (N := B64Num) h i) <= 2 ^ 31)%Z) ->
  exists cols us line r, assoc file_formats fmt = Some cols /\ assoc (file_units "mm") fmt = Some us /\
    write64 fmt h = inr line /\ read_cols64 us (hit_new (N := B64Num)) cols line = inr r /\ h_int (N := B64Num) r Ipid = n /\ in_line fmt h r.
Proof.
  intros I E Bn B. unfold write64. rewrite E. clear E. destruct h as [d z]. cbn [h_int] in B.
  assert (T : forall i, Btrunc (fdiv (b64_of_Z (z i)) fone) = z i).
  { intros i. apply trunc_int. specialize (B i). lia. }
  pose proof (trunc_int n Bn) as Tn.
  repeat (destruct I as [<-|I]); [| | | | |destruct I].
  all: match goal with |- context [assoc file_formats ?f] =>
    let c := eval lazy in (assoc file_formats f) in let w := eval lazy in (assoc (file_units "mm") f) in
    match c with Some ?cols => match w with Some ?us =>
      exists cols, us;
      let l := eval lazy -[b64_of_Z Bdiv Bmult Btrunc c_light64] in (write_cols64 us (hit_set_int (N := B64Num) (mkHit (N := B64Num) d z) Ipid n) cols) in
      match l with inr ?line =>
        exists line;
        let q := eval lazy -[b64_of_Z Bdiv Bmult Btrunc c_light64 hit_set_int hit_set_dbl hit_new B64Num] in (read_cols64 us (hit_new (N := B64Num)) cols line) in
        match q with inr ?r => exists r end
      end
    end end end.
  all: split; [reflexivity|split; [reflexivity|split; [reflexivity|split; [reflexivity|split; [exact Tn|split; [|split]]]]]].
  all: match goal with
    | |- forall v : DblVar, _ => intros v N1 N2; destruct v;
        first [exfalso; apply N1; reflexivity | exfalso; apply N2; reflexivity | reflexivity]
    | |- _ = _ -> _ => intros Q; first [discriminate Q | reflexivity]
    | |- forall i : IntVar, _ => intros i N; destruct i; try (exfalso; apply N; reflexivity);
        lazy -[Btrunc Bdiv b64_of_Z B64Num]; match goal with |- ?a = ?a => reflexivity | _ => apply T end
    end.
Qed.

Lemma file_pid_ok fmt pid : In fmt text_formats -> writable fmt pid -> (Z.abs pid <= 2 ^ 31)%Z ->
  exists n, file_pid fmt pid = Some n /\ pid_of_file fmt n = Some pid /\ (Z.abs n <= 2 ^ 53)%Z.
Proof.
  intros I [n W] B. exists n. repeat (destruct I as [<-|I]); [| | | | |destruct I].
  all: unfold file_id in W; cbn in W.
  all: match goal with
    | W : @eq Z _ _ |- _ => subst; split; [reflexivity|split; [reflexivity|lia]]
    | _ => repeat (destruct W as [W|W]); try contradiction; (injection W as <- <-; (split; [reflexivity|(split; [reflexivity|lia])]))
    end.
Qed.

Section Lib.
  Variable L : PowLib.
  Hypothesis A : accurate L.

  Definition mass_of (pid : Z) : b64 := match pid_mass mass_table (Z.abs pid) with Some m => m | None => fzero end.
  Definition charge_of (pid : Z) : b64 := match zassoc pdg_pid_to_charge pid with Some q => b64_of_Z q | None => fzero end.

  (** The energy that the mass shell condition sets. *)
  Definition energy_of (m px py pz : b64) : b64 :=
    pow_half L (fadd (fadd (fadd (fmul m m) (fmul px px)) (fmul py py)) (fmul pz pz)).

  (** What is read. *)
  Definition complete_hit (pid : Z) (r h' : FHit) : Prop :=
    h_int (N := B64Num) h' Ipid = pid /\ (forall i, i <> Ipid -> h_int (N := B64Num) h' i = h_int (N := B64Num) r i) /\
    fg h' Vmass = mass_of pid /\ fg h' Venergy = energy_of (mass_of pid) (fg r Vpx) (fg r Vpy) (fg r Vpz) /\
    fg h' Vcharge = match zassoc pdg_pid_to_charge pid with Some q => b64_of_Z q | None => fg r Vcharge end /\
    (forall v, v <> Vmass -> v <> Venergy -> v <> Vcharge -> fg h' v = fg r v) /\
    like 9 (sqrt (msq h' + psq h')) (val (fg h' Venergy)).

  Lemma mass_ok pid : fin (mass_of pid) = true /\ scaled 300 (val (mass_of pid)).
  Proof.
    unfold mass_of. assert (Z0 : fin fzero = true /\ scaled 300 (val fzero)) by (split; [reflexivity|now left]).
    assert (G : forall t, Forall (fun x : Z * (Z * Z) => (0 <= fst (snd x) <= 2 ^ 40)%Z /\ (1 <= snd (snd x) <= 2 ^ 40)%Z) t ->
      match pid_mass t (Z.abs pid) with Some m => fin m = true /\ scaled 300 (val m) | None => True end).
    { intros t H. induction H as [|[k [a b]] t [Ha Hb] H IH]; [exact I|]. cbn [fst snd] in Ha, Hb. cbn [pid_mass].
      destruct (Z.eqb k (Z.abs pid)); [|exact IH].
      destruct (ofZ_exact a) as [Fa Va]; [lia|]. destruct (ofZ_exact b) as [Fb Vb]; [lia|].
      assert (S : forall z, (0 <= z <= 2 ^ 40)%Z -> scaled 40 (IZR z)).
      { intros z [Z1 Z2]. destruct (Z.eq_dec z 0) as [-> |N]; [now left|right]. rewrite Rabs_right by (apply Rle_ge, IZR_le; lia). split.
        - apply Rle_trans with 1; [change 1 with (pow2 0); apply bpow_le; lia|]. apply IZR_le. lia.
        - change (pow2 40) with (IZR (2 ^ 40)). now apply IZR_le. }
      destruct (div_like (b64_of_Z a) (b64_of_Z b) 0 0 (IZR a) (IZR b) 40 40 Fa) as (F & K & SS); try lia.
      - rewrite Va. apply like_refl.
      - rewrite Vb. apply like_refl.
      - apply not_0_IZR. lia.
      - apply S. lia.
      - apply S. lia.
      - split; [exact F|]. apply (scaled_le (80 + 1)); [lia|].
        apply (like_scaled 1 80 (IZR a / IZR b)); [apply small_n; lia|exact K|exact SS]. }
    specialize (G mass_table). destruct (pid_mass mass_table (Z.abs pid)) as [m|]; [|exact Z0]. apply G.
    unfold mass_table. repeat (constructor; [cbn; lia|]). constructor.
  Qed.

  Lemma complete_ok pid r : (forall v, In v [Vpx; Vpy; Vpz] -> fin (fg r v) = true /\ scaled 300 (val (fg r v))) ->
    exists h', complete64 L "energy" (hit_set_int (N := B64Num) r Ipid pid) = inr h' /\ complete_hit pid r h'.
  Proof.
    intros M. unfold complete64. cbv zeta.
    change (h_int (hit_set_int r Ipid pid) Ipid) with pid. fold (mass_of pid).
    set (h0 := fs (hit_set_int r Ipid pid) Vmass (mass_of pid)).
    destruct (energy_like L A h0) as (e & E & Fe & Ke).
    { intros v [<-|[<-|[<-|[<-|[]]]]]; [apply (M Vpx); now left|apply (M Vpy); now right; left|apply (M Vpz); now right; right; left|].
      change (fg h0 Vmass) with (mass_of pid). apply mass_ok. }
    assert (Ee : e = energy_of (mass_of pid) (fg r Vpx) (fg r Vpy) (fg r Vpz)).
    { change (mass_shell64 L h0 "energy") with
        (match py_pow (pow_half L) (fadd (fadd (fadd (fmul (mass_of pid) (mass_of pid)) (fmul (fg r Vpx) (fg r Vpx)))
                                    (fmul (fg r Vpy) (fg r Vpy))) (fmul (fg r Vpz) (fg r Vpz))) with
         | inl er => (h0, ShErr er) | inr v => (fs h0 Venergy v, ShTrue) end) in E.
      unfold py_pow in E.
      match type of E with context [if ?b then _ else _] => destruct b; [discriminate E|] end.
      cbv iota beta in E. injection E as E. apply (f_equal (fun f : DblVar -> b64 => f Venergy)) in E. symmetry. exact E. }
    match goal with |- context [mass_shell64 L ?a ?b] => replace (mass_shell64 L a b) with (fs h0 Venergy e, ShTrue) by (symmetry; exact E) end.
    cbv beta iota. change (h_int (fs h0 Venergy e) Ipid) with pid.
    destruct (zassoc pdg_pid_to_charge pid) as [q|] eqn:Q.
    - eexists. split; [reflexivity|]. unfold complete_hit. rewrite Q.
      split; [reflexivity|]. split; [intros i N; destruct i; try reflexivity; now destruct N|]. split; [reflexivity|].
      split; [exact Ee|]. split; [reflexivity|]. split; [|exact Ke].
      intros v N1 N2 N3. destruct v; try reflexivity; try (now destruct N1); try (now destruct N2); now destruct N3.
    - eexists. split; [reflexivity|]. unfold complete_hit. rewrite Q.
      split; [reflexivity|]. split; [intros i N; destruct i; try reflexivity; now destruct N|]. split; [reflexivity|].
      split; [exact Ee|]. split; [reflexivity|]. split; [|exact Ke].
      intros v N1 N2 N3. destruct v; try reflexivity; try (now destruct N1); try (now destruct N2); now destruct N3.
  Qed.

  Lemma copied_fun fmt h h1 h2 : copied L fmt h h1 -> copied L fmt h h2 -> h1 = h2.
  Proof. intros (l & W & E) (l' & W' & E'). congruence. Qed.

  Lemma copied_ok fmt h : In fmt text_formats -> writable fmt (h_int (N := B64Num) h Ipid) ->
    (forall i, (Z.abs (h_int (N := B64Num) h i) <= 2 ^ 31)%Z) ->
    (forall v c, In v [Vpx; Vpy; Vpz] -> unit_of fmt v = Some c -> fin (conv c (fg h v)) = true /\ scaled 300 (val (conv c (fg h v)))) ->
    exists h' r, copied L fmt h h' /\ in_line fmt h r /\ complete_hit (h_int (N := B64Num) h Ipid) r h'.
  Proof.
    intros I W B M. destruct (file_pid_ok fmt _ I W (B Ipid)) as (n & En & Ep & Bn).
    destruct (line_ok fmt h n I En Bn B) as (cols & us & line & r & Ec & Eu & Ew & Er & Pr & (V1 & V2 & V3)).
    assert (P : forall v, In v [Vpx; Vpy; Vpz] -> exists c, unit_of fmt v = Some c).
    { clear - I. intros v J. repeat (destruct I as [<-|I]); [| | | | |destruct I];
        (destruct J as [<-|[<-|[<-|[]]]]; eexists; reflexivity). }
    destruct (complete_ok (h_int (N := B64Num) h Ipid) r) as (h' & Eh & C).
    { intros v J. destruct (P v J) as [c Ev]. rewrite (V1 v).
      - rewrite Ev. now apply M.
      - intros ->. cbn in J. intuition discriminate.
      - intros _ ->. cbn in J. intuition discriminate. }
    exists h', r. split; [|split; [repeat split; assumption|exact C]].
    exists line. split; [exact Ew|]. unfold read64. rewrite Ec, Eu.
    assert (Em : assoc file_mass_shell fmt = Some "energy"%string).
    { clear - I. repeat (destruct I as [<-|I]); [reflexivity..|destruct I]. }
    rewrite Em, Er, Pr, Ep. exact Eh.
  Qed.

  (** The converted numbers of a tame hit. *)
  Lemma conv_tame fmt h v c : tame_hit h -> unit_of fmt v = Some c ->
    fin (conv c (fg h v)) = true /\ scaled 300 (val (conv c (fg h v))) /\ conv c (conv c (fg h v)) = conv c (fg h v) /\
    like 2 (val (fg h v)) (val (conv c (fg h v))).
  Proof.
    intros [T _] E. specialize (T v). apply tame_scaled in T. destruct T as [F S]. pose proof (unit_good _ _ _ E) as G.
    change (h_dbl h v) with (fg h v) in F, S.
    destruct (conv_val c (fg h v) G F) as (F1 & _ & K); [apply (scaled_le 250); [lia|exact S]|].
    split; [exact F1|]. split; [|split; [|exact K]].
    - apply (scaled_le (250 + 1)); [lia|]. apply (like_scaled 2 250 (val (fg h v))); [apply small_n; lia|exact K|exact S].
    - apply conv_twice; [exact G|exact F|apply (scaled_le 250); [lia|exact S]].
  Qed.

  (** The time in a mars file. *)
  Lemma mars_time (x : b64) : tame x ->
    like 5 (val x) (val (fdiv (conv (b64_of_Z 10) (fmul x c_light64)) c_light64)).
  Proof.
    intros T. apply tame_scaled in T. destruct T as [F S]. destruct c_light_good as (Fc & Pc & Sc).
    destruct (mul_like x c_light64 0 0 _ _ 250 40 F Fc (like_refl _) (like_refl _) S Sc) as (F1 & K1); try lia.
    assert (S1 : scaled 291 (val (fmul x c_light64))).
    { apply (like_scaled 1 290 (val x * val c_light64)); [apply small_n; lia|exact K1|]. exact (scaled_mul 250 40 _ _ S Sc). }
    destruct (conv_val (b64_of_Z 10) (fmul x c_light64)) as (F2 & _ & K2); [apply int_unit; lia|exact F1|apply (scaled_le 291); [lia|exact S1]|].
    set (y := conv (b64_of_Z 10) (fmul x c_light64)) in *.
    assert (S2 : scaled 292 (val y)) by (apply (like_scaled 2 291 (val (fmul x c_light64))); [apply small_n; lia|exact K2|exact S1]).
    destruct (div_like y c_light64 0 0 (val y) (val c_light64) 292 40 F2 (like_refl _) (like_refl _) ltac:(lra) S2 Sc) as (F3 & K3 & _); try lia.
    apply (like_le 4); [lia|]. apply (like_trans 3 1 _ (val y / val c_light64)); [|exact K3].
    replace (val x) with (val x * val c_light64 / val c_light64) by (field; lra).
    apply (like_div 3 0); [lra| |apply like_refl]. apply (like_trans 1 2 _ (val (fmul x c_light64))); [exact K1|exact K2].
  Qed.
End Lib.
