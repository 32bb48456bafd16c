(** C93: copies of hits through text files in double precision. *)
From Coq Require Import Reals ZArith Bool String List Lia Lra Psatz.
From Flocq Require Import Core BinarySingleNaN.
From Verif Require Import Num HitcoreModel TableModel IOModel IOSpec FloatModel MomentSpec FloatArith Bin64Model Bin64Spec Bin64Proofs
  Shell64Model Shell64Spec Shell64Proofs Shell64Props File64Model File64Spec File64Round File64Proofs.
Import ListNotations.
Open Scope R_scope.

(** One copy: written and read back, a hit keeps its integers exactly, its numbers in units of xboa exactly and the
    others up to a few roundings, and it is on its mass shell. *)
Theorem C93_copy L fmt h : accurate L -> In fmt text_formats -> writable fmt (h_int (N := B64Num) h Ipid) -> tame_hit h ->
  exists h', copied L fmt h h' /\
    (forall i, In i (ints_in_file fmt) -> h_int (N := B64Num) h' i = h_int (N := B64Num) h i) /\
    (forall v, In v (same_unit fmt) -> h_dbl (N := B64Num) h' v = h_dbl (N := B64Num) h v) /\
    (forall v, In v (in_file fmt) -> Rabs (of_hit h' v - of_hit h v) <= 10 * / 2 ^ 53 * Rabs (of_hit h v)) /\
    (0 <= of_hit h' Venergy /\ Rabs (esq h' - (psq h' + msq h')) <= 40 * / 2 ^ 53 * (psq h' + msq h')).
Proof.
  intros A I W T. assert (CT := fun v c => conv_tame fmt h v c T).
  destruct (copied_ok L A fmt h I W (proj2 T)) as (h' & r & C & (V1 & V2 & V3) & (P1 & P2 & M1 & E1 & Q1 & K1 & Ke)).
  { intros v c _ E. destruct (CT v c E) as (F & S & _). now split. }
  pose proof u_pos as Pu. rewrite pow_m53.
  assert (Con : forall v c, v <> Vmass -> v <> Venergy -> v <> Vcharge -> (fmt = "mars_1"%string -> v <> Vt) -> unit_of fmt v = Some c ->
    fg h' v = conv c (fg h v)).
  { intros v c N1 N2 N3 N4 E. rewrite K1 by assumption. rewrite V1 by assumption. now rewrite E. }
  exists h'. split; [exact C|]. split; [|split; [|split]].
  - intros i J. destruct (intvar_eq_dec i Ipid) as [-> |N]; [exact P1|]. rewrite P2, V3 by exact N.
    replace (existsb (fun j => if intvar_eq_dec i j then true else false) (ints_in_file fmt)) with true; [reflexivity|].
    symmetry. apply existsb_exists. exists i. split; [exact J|]. now destruct (intvar_eq_dec i i).
  - intros v J.
    assert (N : v <> Vmass /\ v <> Venergy /\ v <> Vcharge /\ (fmt = "mars_1"%string -> v <> Vt) /\ unit_of fmt v = Some fone).
    { repeat (destruct I as [<-|I]); [| | | | |destruct I]; cbn in J;
        repeat (destruct J as [<-|J]; [repeat split; try discriminate; intros _; discriminate|]); destruct J. }
    destruct N as (N1 & N2 & N3 & N4 & E). change (fg h' v = fg h v). rewrite (Con v fone N1 N2 N3 N4 E).
    destruct T as [T _]. specialize (T v). apply tame_scaled in T. destruct T as [F S].
    apply conv_one; [exact F|]. apply (scaled_le 250); [lia|exact S].
  - intros v J.
    assert (N : v <> Vmass /\ v <> Venergy /\ v <> Vcharge /\ ((fmt = "mars_1"%string /\ v = Vt) \/
      ((fmt = "mars_1"%string -> v <> Vt) /\ exists c, unit_of fmt v = Some c))).
    { repeat (destruct I as [<-|I]); [| | | | |destruct I]; cbn in J;
        repeat (destruct J as [<-|J]; [split; [discriminate|split; [discriminate|split; [discriminate|]]];
          first [left; split; reflexivity|right; split; [intros Q; first [discriminate Q|discriminate]|eexists; reflexivity]]|]); destruct J. }
    destruct N as (N1 & N2 & N3 & [[Em ->]|[N4 [c E]]]).
    + assert (K : like 5 (val (fg h Vt)) (val (fg h' Vt))).
      { rewrite K1 by assumption. rewrite (V2 Em). apply mars_time. apply (proj1 T). }
      apply like_error in K; [|apply small_n; lia]. replace (INR 5) with 5 in K by (rewrite INR_IZR_INZ; reflexivity).
      unfold of_hit. change (h_dbl h' Vt) with (fg h' Vt). change (h_dbl h Vt) with (fg h Vt).
      replace (10 * u) with (2 * 5 * u) by ring. exact K.
    + destruct (CT v c E) as (_ & _ & _ & K). rewrite <- (Con v c N1 N2 N3 N4 E) in K.
      apply like_error in K; [|apply small_n; lia]. simpl INR in K.
      unfold of_hit. change (h_dbl h' v) with (fg h' v). change (h_dbl h v) with (fg h v).
      eapply Rle_trans; [exact K|]. apply Rmult_le_compat_r; [apply Rabs_pos|lra].
  - assert (P : 0 <= msq h' + psq h').
    { unfold msq, psq. pose proof (sq_nonneg (of_hit h' Vmass)). pose proof (sq_nonneg (of_hit h' Vpx)).
      pose proof (sq_nonneg (of_hit h' Vpy)). pose proof (sq_nonneg (of_hit h' Vpz)). lra. }
    split; [apply (like_nonneg 9 _ _ (sqrt_pos _) Ke)|].
    apply like_sq in Ke. rewrite sqrt_sqrt in Ke by exact P. apply like_error in Ke; [|apply small_n; lia].
    cbn [Nat.add] in Ke. replace (INR 18) with 18 in Ke by (rewrite INR_IZR_INZ; reflexivity).
    rewrite (Rabs_right (msq h' + psq h')) in Ke by lra.
    change (esq h') with (val (fg h' Venergy) * val (fg h' Venergy)).
    replace (psq h' + msq h') with (msq h' + psq h') by ring. nra.
Qed.

(** Any number of further copies changes nothing, to the last bit. *)
Theorem C93_no_drift L fmt h n : accurate L -> In fmt text_formats -> writable fmt (h_int (N := B64Num) h Ipid) -> tame_hit h ->
  exists h1 h', copied L fmt h h1 /\ copied_times L fmt (S n) h h' /\
    (forall i, h_int (N := B64Num) h' i = h_int (N := B64Num) h1 i) /\
    (forall v, (fmt = "mars_1"%string -> v <> Vt) -> h_dbl (N := B64Num) h' v = h_dbl (N := B64Num) h1 v).
Proof.
  intros A I W T. assert (CT := fun v c => conv_tame fmt h v c T).
  destruct (copied_ok L A fmt h I W (proj2 T)) as (h1 & r & C & (V1 & V2 & V3) & (P1 & P2 & M1 & E1 & Q1 & K1 & _)).
  { intros v c _ E. destruct (CT v c E) as (F & S & _). now split. }
  assert (Con : forall v c, v <> Vmass -> v <> Venergy -> v <> Vcharge -> (fmt = "mars_1"%string -> v <> Vt) -> unit_of fmt v = Some c ->
    fg h1 v = conv c (fg h v)).
  { intros v c N1 N2 N3 N4 E. rewrite K1 by assumption. rewrite V1 by assumption. now rewrite E. }
  assert (Nu : forall v c, unit_of fmt v = Some c -> v <> Vmass /\ v <> Venergy /\ v <> Vcharge).
  { intros v c E. repeat (destruct I as [<-|I]); [| | | | |destruct I]; destruct v; try discriminate E; repeat split; discriminate. }
  exists h1. induction n as [|n IH].
  - exists h1. split; [exact C|]. split; [econstructor; [constructor|exact C]|]. split; reflexivity.
  - destruct IH as (h' & _ & Ct & Hi & Hv).
    assert (Bi : forall i, (Z.abs (h_int (N := B64Num) h' i) <= 2 ^ 31)%Z).
    { intros i. rewrite Hi. destruct (intvar_eq_dec i Ipid) as [-> |N]; [rewrite P1; apply (proj2 T)|].
      rewrite P2, V3 by exact N. destruct (existsb _ _); [apply (proj2 T)|lia]. }
    assert (Pp : h_int (N := B64Num) h' Ipid = h_int (N := B64Num) h Ipid) by (rewrite Hi; exact P1).
    assert (Same : forall v c, (fmt = "mars_1"%string -> v <> Vt) -> unit_of fmt v = Some c -> conv c (fg h' v) = conv c (fg h v)).
    { intros v c N4 E. destruct (Nu v c E) as (N1 & N2 & N3). replace (fg h' v) with (fg h1 v) by (symmetry; apply Hv; exact N4).
      rewrite (Con v c) by assumption. now destruct (CT v c E) as (_ & _ & Q & _). }
    destruct (copied_ok L A fmt h' I) as (h2 & r2 & C2 & (W1 & W2 & W3) & (O1 & O2 & M2 & E2 & Q2 & K2 & _)).
    { now rewrite Pp. }
    { exact Bi. }
    { intros v c J E. rewrite (Same v c).
      - destruct (CT v c E) as (F & S & _). now split.
      - intros _ ->. cbn in J. intuition discriminate.
      - exact E. }
    exists h2. split; [exact C|]. split; [econstructor; [exact Ct|exact C2]|].
    assert (Rv : forall v, v <> Venergy -> (fmt = "mars_1"%string -> v <> Vt) -> fg r2 v = fg r v).
    { intros v N1 N2. rewrite W1, V1 by assumption. destruct (unit_of fmt v) as [c|] eqn:E; [|reflexivity]. now apply Same. }
    assert (Rp : forall v, In v [Vpx; Vpy; Vpz] -> fg r2 v = fg r v).
    { intros v J. apply Rv; [intros ->|intros _ ->]; cbn in J; intuition discriminate. }
    split.
    + intros i. destruct (intvar_eq_dec i Ipid) as [-> |N]; [now rewrite O1, Pp, P1|].
      rewrite O2, P2, W3, V3 by exact N. rewrite Hi, P2, V3 by exact N. now destruct (existsb _ _).
    + intros v N. change (fg h2 v = fg h1 v).
      destruct (dblvar_eq_dec v Vmass) as [-> |Nm]; [now rewrite M2, M1, Pp|].
      destruct (dblvar_eq_dec v Venergy) as [-> |Ne].
      { rewrite E2, E1, Pp. rewrite (Rp Vpx), (Rp Vpy), (Rp Vpz) by (cbn; tauto). reflexivity. }
      destruct (dblvar_eq_dec v Vcharge) as [-> |Nc].
      { rewrite Q2, Q1, Pp. destruct (zassoc _ _); [reflexivity|]. apply Rv; [discriminate|intros _; discriminate]. }
      rewrite K2, K1 by assumption. now apply Rv.
Qed.

(** A muon at x = 1001 mm and t = 23 ns. *)
Definition ex_muon : FHit :=
  mkHit (N := B64Num) (fun v => match v with
    | Vx => b64_of_Z 1001 | Vt => b64_of_Z 23 | Vpx => b64_of_Z (-3) | Vpz => b64_of_Z 200 | Vlocal_weight => fone
    | Vmass => fdiv (b64_of_Z 1056583668) (b64_of_Z 10000000) | _ => fzero end)
    (fun v => match v with Ipid => 13%Z | Istation => 5%Z | Ievent => 7%Z | _ => 0%Z end).

Example C93_hit_ex : tame_hit ex_muon /\ forall fmt, In fmt text_formats -> writable fmt (h_int (N := B64Num) ex_muon Ipid).
Proof.
  split; [split|].
  - assert (Z1 : forall z, (Z.abs z <= 2 ^ 53)%Z -> tame (b64_of_Z z)).
    { intros z H. apply tame_scaled. destruct (ofZ_exact z H) as [F V]. split; [exact F|]. rewrite V.
      destruct (Z.eq_dec z 0) as [-> |N]; [now left|right]. split.
      - apply Rle_trans with 1; [change 1 with (pow2 0); apply bpow_le; lia|]. rewrite <- abs_IZR. apply IZR_le. lia.
      - apply Rle_trans with (pow2 53); [now apply int_small|]. apply bpow_le. lia. }
    assert (Z0 : tame fzero) by (split; [reflexivity|now left]).
    intros v. cbn [h_dbl ex_muon]. destruct v; first [exact Z0|apply Z1; lia|idtac].
    destruct (div_unit 1056583668 10000000) as (F & _ & S); [lia..|]. apply tame_scaled. split; [exact F|]. apply (scaled_le 40); [lia|exact S].
  - intros i. cbn [h_int ex_muon]. destruct i; lia.
  - intros fmt I. repeat (destruct I as [<-|I]); [| | | | |destruct I].
    + exists (-2)%Z. unfold file_id. cbn. tauto.
    + exists (-2)%Z. unfold file_id. cbn. tauto.
    + exists 13%Z. reflexivity.
    + exists 13%Z. reflexivity.
    + exists 8%Z. unfold file_id. cbn. tauto.
Qed.

(** The numbers of one copy, as bits. *)
Definition copy_bits (fmt : string) (h : FHit) (v : DblVar) : option SpecFloat.spec_float :=
  match write64 fmt h with
  | inr line => match read64 plain fmt line with inr h' => Some (B2SF (h_dbl (N := B64Num) h' v)) | inl _ => None end
  | inl _ => None
  end.

(** The first copy is not exact: in an ICOOL file x = 1001 mm becomes the next smaller double,
    in a MARS file t = 23 ns the next larger one; in a G4Beamline file x comes back as it was. *)
Theorem C93_exact_refuted :
  copy_bits "icool_for009" ex_muon Vx = Some (SpecFloat.S754_finite false 8804889115230207 (-43)) /\
  copy_bits "icool_for009" ex_muon Vx <> Some (B2SF (h_dbl (N := B64Num) ex_muon Vx)) /\
  copy_bits "mars_1" ex_muon Vt = Some (SpecFloat.S754_finite false 6473924464345089 (-48)) /\
  copy_bits "mars_1" ex_muon Vt <> Some (B2SF (h_dbl (N := B64Num) ex_muon Vt)) /\
  copy_bits "g4beamline_bl_track_file" ex_muon Vx = Some (B2SF (h_dbl (N := B64Num) ex_muon Vx)).
Proof. vm_compute. repeat split; discriminate. Qed.

Print Assumptions C93_copy.
Print Assumptions C93_no_drift.
Print Assumptions C93_exact_refuted.
