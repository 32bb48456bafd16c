(** Lemmas about hit factories. *)
From Coq Require Import Reals ZArith List Bool String Lia.
From Verif Require Import Num WeightModel HitcoreModel PyLibModel HitPyModel TableModel IOModel FactoryModel FactorySpec.
Import ListNotations.
Open Scope string_scope.
Open Scope list_scope.

(** ---- lists and logs ---- *)

Lemma set_nth_length {A} (x : A) n l : (n < List.length l)%nat -> List.length (set_nth n x l) = List.length l.
Proof.
  intros L. unfold set_nth. rewrite app_length, firstn_length_le by lia. cbn [List.length]. rewrite skipn_length. lia.
Qed.
Lemma set_nth_same {A} (x : A) n l : (n < List.length l)%nat -> nth_error (set_nth n x l) n = Some x.
Proof.
  intros L. unfold set_nth. rewrite nth_error_app2 by (rewrite firstn_length_le; lia).
  rewrite firstn_length_le by lia. rewrite Nat.sub_diag. reflexivity.
Qed.
Lemma set_nth_other {A} (x : A) : forall n l m, m <> n -> (n < List.length l)%nat -> nth_error (set_nth n x l) m = nth_error l m.
Proof.
  induction n as [|n IH]; intros [|a l] m M L; cbn [List.length] in L; try lia.
  - destruct m; [contradiction|reflexivity].
  - destruct m as [|m]; [reflexivity|]. change (set_nth (S n) x (a :: l)) with (a :: set_nth n x l). cbn [nth_error].
    apply IH; lia.
Qed.
Lemma nth_of_error {A} (l : list A) n d : nth n l d = match nth_error l n with Some x => x | None => d end.
Proof. revert n. induction l as [|a l IH]; intros [|n]; try reflexivity. apply IH. Qed.

Lemma requests_app f a b : requests f (a ++ b) = requests f a ++ requests f b.
Proof. induction a as [|[] a IH]; cbn [app requests]; auto. destruct (Nat.eqb file f); cbn [app]; rewrite IH; auto. Qed.
Lemma nexts_app g a b : nexts g (a ++ b) = nexts g a ++ nexts g b.
Proof. induction a as [|[] a IH]; cbn [app nexts]; auto. destruct (Nat.eqb g0 g); cbn [app]; rewrite IH; auto. Qed.
Lemma warned_app a b : warned (a ++ b) = warned a ++ warned b.
Proof. induction a as [|[] a IH]; cbn [app warned]; auto. rewrite IH. auto. Qed.
Lemma requests_warn f ws : requests f (map SWarn ws) = [].
Proof. induction ws; auto. Qed.
Lemma nexts_warn g ws : nexts g (map SWarn ws) = [].
Proof. induction ws; auto. Qed.
Lemma warned_warn ws : warned (map SWarn ws) = ws.
Proof. induction ws as [|a ws IH]; cbn; auto. rewrite IH. auto. Qed.
Lemma opened_app a b : opened (a ++ b) = opened a ++ opened b.
Proof. induction a as [|[] a IH]; cbn [app opened]; auto. rewrite IH. auto. Qed.

Lemma served_more c ls rs : served c ls rs -> forall k r,
  match skipn (List.length rs) ls with
  | l :: _ => of_line c k l r
  | [] => r = inl FEof
  end -> served c ls (rs ++ [(k, r)]).
Proof.
  induction 1 as [ls|l ls k r rs L H IH|k rs H IH]; intros k' r' E.
  - cbn [List.length skipn app] in *. destruct ls as [|l ls].
    + subst. apply served_end, served_none.
    + apply served_line; [exact E|apply served_none].
  - cbn [List.length skipn app] in *. apply served_line; auto.
  - cbn [List.length skipn app] in *. apply served_end. apply IH. destruct rs; cbn; exact E.
Qed.

Lemma zassoc_none {A} (d : list (Z * A)) k : zassoc d k = None <-> ~ In k (map fst d).
Proof.
  induction d as [|[k' v] d IH]; cbn [zassoc map fst In]; [tauto|].
  destruct (Z.eqb_spec k' k) as [->|N]; [|tauto]. split; [discriminate|]. intros F. exfalso. auto.
Qed.

Lemma no_charge fmt : is_in "charge" (match assoc file_formats fmt with Some cols => cols | None => [] end) = false.
Proof.
  unfold file_formats. cbn [assoc].
  repeat match goal with |- context [String.eqb ?a ?b] => destruct (String.eqb a b); [reflexivity|] end. reflexivity.
Qed.

Lemma existsb_in p l : existsb (Z.eqb p) l = true <-> In p l.
Proof.
  rewrite existsb_exists. split.
  - intros (x & I & E). apply Z.eqb_eq in E. subst. exact I.
  - intros I. exists p. split; [exact I|apply Z.eqb_refl].
Qed.

(** ---- one make_hit ---- *)

Lemma warnings_spec k h w : exists ws,
  warnings k h w = mkFW (fw_files w) (fw_facs w) (fw_gens w) (fw_bad w ++ ws) (fw_log w ++ map SWarn ws) /\
  (NoDup (fw_bad w) -> NoDup (fw_bad w ++ ws)) /\
  forall p, In p (fw_bad w ++ ws) <-> In p (fw_bad w) \/ (exists fmt, k = KBuiltin fmt) /\ pid_of h = p /\ strange p.
Proof.
  assert (Z0 : forall v, v = mkFW (fw_files v) (fw_facs v) (fw_gens v) (fw_bad v ++ []) (fw_log v ++ map SWarn []))
    by (intros [v1 v2 v3 v4 v5]; cbn [fw_files fw_facs fw_gens fw_bad fw_log map]; rewrite !app_nil_r; reflexivity).
  destruct k as [fmt|cols us ms].
  2:{ exists []. split; [apply Z0|]. rewrite app_nil_r. split; [auto|]. intros p. split; [tauto|]. intros [|[[fmt F] _]]; [auto|discriminate]. }
  unfold warnings. rewrite no_charge. cbv zeta.
  set (p0 := pid_of h).
  destruct (zassoc pdg_pid_to_mass (Z.abs p0)) eqn:M; destruct (zassoc pdg_pid_to_charge p0) eqn:C.
  - exists []. split; [apply Z0|]. rewrite app_nil_r. split; [auto|]. intros p. split; [tauto|]. intros [|[_ [<- [S|S]]]]; [auto| |].
    + apply zassoc_none in S. congruence.
    + apply zassoc_none in S. congruence.
  - apply zassoc_none in C. unfold warn. destruct (existsb (Z.eqb p0) (fw_bad w)) eqn:B.
    + apply existsb_in in B. exists []. split; [apply Z0|]. rewrite app_nil_r. split; [auto|].
      intros p. split; [tauto|]. intros [|[_ [<- _]]]; auto.
    + exists [p0]. split; [reflexivity|]. split.
      * intros N. apply NoDup_rev in N. rewrite <- (rev_involutive (fw_bad w ++ [p0])). apply NoDup_rev. rewrite rev_app_distr.
        cbn [rev app]. apply NoDup_cons; [|exact N]. rewrite <- in_rev. intros I. apply existsb_in in I. congruence.
      * intros p. rewrite in_app_iff. cbn [In]. split; [|intros [|[_ [<- _]]]; tauto].
        intros [|[<-|[]]]; [tauto|]. right. split; [eauto|]. split; [reflexivity|]. right. exact C.
  - apply zassoc_none in M. unfold warn. destruct (existsb (Z.eqb p0) (fw_bad w)) eqn:B.
    + apply existsb_in in B. exists []. split; [apply Z0|]. rewrite app_nil_r. split; [auto|].
      intros p. split; [tauto|]. intros [|[_ [<- _]]]; auto.
    + exists [p0]. split; [reflexivity|]. split.
      * intros N. apply NoDup_rev in N. rewrite <- (rev_involutive (fw_bad w ++ [p0])). apply NoDup_rev. rewrite rev_app_distr.
        cbn [rev app]. apply NoDup_cons; [|exact N]. rewrite <- in_rev. intros I. apply existsb_in in I. congruence.
      * intros p. rewrite in_app_iff. cbn [In]. split; [|intros [|[_ [<- _]]]; tauto].
        intros [|[<-|[]]]; [tauto|]. right. split; [eauto|]. split; [reflexivity|]. left. exact M.
  - apply zassoc_none in M. unfold warn at 2. destruct (existsb (Z.eqb p0) (fw_bad w)) eqn:B.
    + unfold warn. rewrite B. apply existsb_in in B. exists []. split; [apply Z0|]. rewrite app_nil_r. split; [auto|].
      intros p. split; [tauto|]. intros [|[_ [<- _]]]; auto.
    + exists [p0]. split.
      { unfold warn. cbn [fw_bad]. assert (X : existsb (Z.eqb p0) (fw_bad w ++ [p0]) = true)
          by (apply existsb_in, in_or_app; right; cbn; auto). rewrite X. reflexivity. }
      split.
      * intros N. apply NoDup_rev in N. rewrite <- (rev_involutive (fw_bad w ++ [p0])). apply NoDup_rev. rewrite rev_app_distr.
        cbn [rev app]. apply NoDup_cons; [|exact N]. rewrite <- in_rev. intros I. apply existsb_in in I. congruence.
      * intros p. rewrite in_app_iff. cbn [In]. split; [|intros [|[_ [<- _]]]; tauto].
        intros [|[<-|[]]]; [tauto|]. right. split; [eauto|]. split; [reflexivity|]. left. exact M.
Qed.

Lemma make_spec c k f w w' r : make c k f w = (w', r) -> exists ws,
  fw_facs w' = fw_facs w /\ fw_gens w' = fw_gens w /\ fw_bad w' = fw_bad w ++ ws /\
  fw_log w' = fw_log w ++ map SWarn ws ++ [SRead f k r] /\
  (NoDup (fw_bad w) -> NoDup (fw_bad w ++ ws)) /\
  (forall p, In p (fw_bad w ++ ws) <-> In p (fw_bad w) \/ exists fmt h, k = KBuiltin fmt /\ r = inr h /\ pid_of h = p /\ strange p) /\
  match nth f (fw_files w) [] with
  | [] => r = inl FEof /\ fw_files w' = fw_files w
  | l :: t => of_line c k l r /\ fw_files w' = set_nth f t (fw_files w)
  end.
Proof.
  unfold make. cbv zeta. intros E.
  assert (P : forall e : FErr, forall p, In p (fw_bad w ++ []) <-> In p (fw_bad w) \/
      exists fmt h, k = KBuiltin fmt /\ @inl FErr RHit e = inr h /\ pid_of h = p /\ strange p).
  { intros e p. rewrite app_nil_r. split; [tauto|]. intros [|(? & ? & _ & X & _)]; [auto|discriminate]. }
  destruct (nth f (fw_files w) []) as [|l t].
  - injection E as <- <-. exists []. cbn [fw_files fw_facs fw_gens fw_bad fw_log map app]. rewrite (app_nil_r (fw_bad w)) at 1.
    repeat (split; [reflexivity|]). split; [rewrite app_nil_r; auto|]. split; [apply (P FEof)|auto].
  - destruct (read_kind k c (tokens l)) as [h| |e] eqn:R.
    + destruct (warnings_spec k h (mkFW (set_nth f t (fw_files w)) (fw_facs w) (fw_gens w) (fw_bad w) (fw_log w))) as (ws & W & N & B).
      rewrite W in E. injection E as <- <-. cbn [fw_files fw_facs fw_gens fw_bad fw_log] in *. exists ws.
      rewrite app_assoc. repeat (split; [reflexivity|]). split; [exact N|]. split.
      * intros p. rewrite B. split.
        -- intros [|[[fmt F] [G S]]]; [tauto|]. right. exists fmt, h. auto.
        -- intros [|(fmt & h' & F & G & S)]; [tauto|]. right. injection G as <-. split; [eauto|exact S].
      * split; [exact R|reflexivity].
    + injection E as <- <-. exists []. cbn [fw_files fw_facs fw_gens fw_bad fw_log map app]. rewrite (app_nil_r (fw_bad w)) at 1.
      repeat (split; [reflexivity|]). split; [rewrite app_nil_r; auto|]. split; [apply (P FBad)|auto].
    + injection E as <- <-. exists []. cbn [fw_files fw_facs fw_gens fw_bad fw_log map app]. rewrite (app_nil_r (fw_bad w)) at 1.
      repeat (split; [reflexivity|]). split; [rewrite app_nil_r; auto|]. split; [apply (P (FErr_ e))|auto].
Qed.

(** ---- histories ---- *)

Definition read_of (log : list Seen) (p : Z) : Prop :=
  exists f fmt h, In (SRead f (KBuiltin fmt) (inr h)) log /\ pid_of h = p /\ strange p.

Record Inv (c : RCtx) (os : list (list Line)) (w : FWorld) : Prop := mkInv {
  i_len : List.length (fw_files w) = List.length os;
  i_file : forall f ls, nth_error os f = Some ls ->
     nth f (fw_files w) [] = skipn (List.length (requests f (fw_log w))) ls /\ served c ls (requests f (fw_log w));
  i_none : forall f, (List.length os <= f)%nat -> requests f (fw_log w) = [];
  i_bad : fw_bad w = warned (fw_log w);
  i_nodup : NoDup (fw_bad w);
  i_in : forall p, In p (fw_bad w) <-> read_of (fw_log w) p }.

Lemma make_inv c os k f w w' r : Inv c os w -> (f < List.length os)%nat -> make c k f w = (w', r) -> Inv c os w'.
Proof.
  intros [A B C D N I] L E. destruct (make_spec c k f w w' r E) as (ws & _ & _ & Hb & Hl & Hn & Hi & Hf).
  assert (Lw : (f < List.length (fw_files w))%nat) by lia.
  destruct (nth_error os f) as [ls|] eqn:O. 2:{ apply nth_error_None in O. lia. }
  destruct (B f ls O) as [B1 B2].
  assert (R : forall g, requests g (fw_log w') = requests g (fw_log w) ++ (if Nat.eqb f g then [(k, r)] else [])).
  { intros g. rewrite Hl, !requests_app, requests_warn. cbn [app requests]. destruct (Nat.eqb f g); reflexivity. }
  assert (F : List.length (fw_files w') = List.length (fw_files w) /\ (forall g, g <> f -> nth g (fw_files w') [] = nth g (fw_files w) []) /\
              nth f (fw_files w') [] = tl (nth f (fw_files w) [])).
  { destruct (nth f (fw_files w) []) as [|l t] eqn:Nf; destruct Hf as [_ Hf]; rewrite Hf.
    - split; [reflexivity|]. split; auto.
    - split; [apply set_nth_length; lia|]. split.
      + intros g G. rewrite !nth_of_error, set_nth_other by (auto; lia). reflexivity.
      + rewrite nth_of_error, set_nth_same by lia. reflexivity. }
  destruct F as (F1 & F2 & F3). constructor.
  - lia.
  - intros g ls' Og. rewrite R. destruct (Nat.eqb_spec f g) as [<-|G].
    + assert (ls' = ls) by congruence. subst ls'. rewrite app_length. cbn [List.length].
      split.
      * rewrite F3, B1. clear. revert ls. generalize (List.length (requests f (fw_log w))) as n. intros n.
        induction n as [|n IH]; intros [|l ls]; cbn; auto.
      * apply served_more; auto. rewrite <- B1. destruct (nth f (fw_files w) []) as [|l t]; tauto.
    + rewrite app_nil_r, F2 by auto. apply B; auto.
  - intros g G. rewrite R, C by auto. destruct (Nat.eqb_spec f g); [lia|reflexivity].
  - rewrite Hb, Hl, D, !warned_app, warned_warn. cbn [warned]. rewrite app_nil_r. reflexivity.
  - rewrite Hb. auto.
  - intros p. rewrite Hb, Hi, I. unfold read_of. rewrite Hl. split.
    + intros [(g & fmt & h & J & S)|(fmt & h & -> & -> & S)].
      * exists g, fmt, h. split; [apply in_or_app; auto|exact S].
      * exists f, fmt, h. split; [|exact S]. apply in_or_app. right. apply in_or_app. right. cbn. auto.
    + intros (g & fmt & h & J & S). apply in_app_or in J. destruct J as [J|J]; [left; eauto 6|].
      apply in_app_or in J. destruct J as [J|[J|[]]].
      * apply in_map_iff in J. destruct J as (? & ? & _). discriminate.
      * right. injection J as -> -> ->. eauto 8.
Qed.

(** The log may get other lines, and factories and generators may change. *)
Lemma Inv_other c os w facs gens s : Inv c os w -> (forall f k r, s <> SRead f k r) -> (forall p, s <> SWarn p) ->
  Inv c os (mkFW (fw_files w) facs gens (fw_bad w) (fw_log w ++ [s])).
Proof.
  intros [A B C D N I] S1 S2.
  assert (R : forall f, requests f (fw_log w ++ [s]) = requests f (fw_log w)).
  { intros f. rewrite requests_app. destruct s; try (cbn [requests]; rewrite app_nil_r; reflexivity). exfalso. eapply S1. reflexivity. }
  constructor; cbn [fw_files fw_facs fw_gens fw_bad fw_log]; auto.
  - intros f ls. rewrite R. auto.
  - intros f. rewrite R. auto.
  - rewrite warned_app, D. destruct s; cbn [warned]; rewrite ?app_nil_r; try reflexivity. exfalso. eapply S2. reflexivity.
  - intros p. rewrite I. unfold read_of. split; intros (f & fmt & h & J & S); exists f, fmt, h; (split; [|exact S]).
    + apply in_or_app. auto.
    + apply in_app_or in J. destruct J as [J|[J|[]]]; [auto|]. exfalso. eapply S1. exact J.
Qed.
Lemma Inv_same c os w facs gens : Inv c os w -> Inv c os (mkFW (fw_files w) facs gens (fw_bad w) (fw_log w)).
Proof. intros [A B C D N I]. constructor; auto. Qed.

(** Generators. *)
Definition gen_says (s : GState) (os : list (GOut RHit FErr)) : Prop :=
  match s with
  | GStart => os = []
  | GEnd => exists o r, os = o :: r /\ Forall (fun x => x = GStop) r
  end.
Record GInv (w : FWorld) : Prop := mkGInv {
  g_fac : forall k f, In (k, f) (fw_facs w) -> (f < List.length (fw_files w))%nat /\ kind_ok k = true;
  g_gen : forall g i s, nth_error (fw_gens w) g = Some (i, s) -> (i < List.length (fw_facs w))%nat /\ gen_says s (nexts g (fw_log w));
  g_none : forall g, (List.length (fw_gens w) <= g)%nat -> nexts g (fw_log w) = [] }.

Lemma make_nexts c k f w w' r g : make c k f w = (w', r) -> nexts g (fw_log w') = nexts g (fw_log w).
Proof.
  intros E. destruct (make_spec c k f w w' r E) as (ws & _ & _ & _ & -> & _). rewrite !nexts_app, nexts_warn. cbn [nexts app].
  apply app_nil_r.
Qed.
Lemma make_keeps c k f w w' r : make c k f w = (w', r) -> (f < List.length (fw_files w))%nat ->
  fw_facs w' = fw_facs w /\ fw_gens w' = fw_gens w /\ List.length (fw_files w') = List.length (fw_files w).
Proof.
  intros E L. destruct (make_spec c k f w w' r E) as (ws & H1 & H2 & _ & _ & _ & _ & H). split; [auto|]. split; [auto|].
  destruct (nth f (fw_files w) []); destruct H as [_ ->]; [reflexivity|]. apply set_nth_length. exact L.
Qed.
Lemma make_ginv c k f w w' r : GInv w -> (f < List.length (fw_files w))%nat -> make c k f w = (w', r) -> GInv w'.
Proof.
  intros [A B C] L E. destruct (make_keeps c k f w w' r E L) as (H1 & H2 & H3).
  constructor; rewrite ?H1, ?H2, ?H3; auto; intros; rewrite (make_nexts c k f w w' r _ E); auto.
Qed.

(** next: what it does is done by make_hit. *)
Lemma next_ind c k f (P : FWorld -> Prop) : (forall w w' r, P w -> make c k f w = (w', r) -> P w') ->
  forall s w s' w' o, P w -> gen_next (make c k f) no_spill text_caught s w = (s', w', o) -> P w' /\ s' = GEnd /\ (s = GEnd -> o = GStop /\ w' = w).
Proof.
  intros H s w s' w' o Hw. unfold gen_next, no_spill. destruct s.
  2:{ intros E. injection E as <- <- <-. auto. }
  destruct (make c k f w) as [w1 [e|h]] eqn:E1.
  2:{ intros E. injection E as <- <- <-. split; [eauto|]. split; [reflexivity|discriminate]. }
  destruct (text_caught e).
  2:{ intros E. injection E as <- <- <-. split; [eauto|]. split; [reflexivity|discriminate]. }
  destruct (make c k f w1) as [w2 [e'|h]] eqn:E2; intros E; injection E as <- <- <-; (split; [eauto|]); (split; [reflexivity|discriminate]).
Qed.

Lemma step_inv c p o w : Inv c (opened p) w -> GInv w -> Inv c (opened (p ++ [o])) (fstep c w o) /\ GInv (fstep c w o).
Proof.
  intros I G. rewrite opened_app.
  assert (Lf : forall i k f, nth_error (fw_facs w) i = Some (k, f) -> (f < List.length (fw_files w))%nat).
  { intros i k f E. apply nth_error_In in E. apply (g_fac w G) in E. tauto. }
  pose proof (i_len _ _ _ I) as L.
  destruct o as [ls|k f|i|i|g|k f]; cbn [opened fstep]; try rewrite app_nil_r.
  - split.
    + destruct I as [A B C D N J]. constructor; cbn [fw_files fw_log fw_bad]; auto.
      * rewrite !app_length, A. reflexivity.
      * intros f l E. destruct (Nat.lt_ge_cases f (List.length (opened p))) as [F|F].
        -- rewrite nth_error_app1 in E by exact F. rewrite app_nth1 by lia. auto.
        -- rewrite nth_error_app2 in E by exact F. rewrite (C f F). cbn [List.length skipn].
           destruct (f - List.length (opened p))%nat as [|n] eqn:Q.
           ++ injection E as <-. rewrite app_nth2 by lia. rewrite A, Q. split; [reflexivity|apply served_none].
           ++ cbn in E. destruct n; discriminate.
      * intros f F. apply C. rewrite app_length in F. lia.
    + destruct G as [A B C]. constructor; cbn [fw_files fw_facs fw_gens fw_log]; auto.
      intros k f J. destruct (A k f J). rewrite app_length. split; [lia|auto].
  - destruct (Nat.ltb_spec f (List.length (fw_files w))) as [F|F]; cbn [negb]; [|auto].
    destruct (kind_ok k) eqn:K.
    + split; [apply Inv_same; exact I|]. destruct G as [A B C]. constructor; cbn [fw_files fw_facs fw_gens fw_log]; auto.
      * intros k' f' J. apply in_app_or in J. destruct J as [J|[J|[]]]; [auto|]. injection J as <- <-. auto.
      * intros g i s J. destruct (B g i s J). rewrite app_length. split; [lia|auto].
    + split; [apply Inv_other; [exact I|discriminate|discriminate]|]. destruct G as [A B C].
      constructor; unfold key_error; cbn [fw_files fw_facs fw_gens fw_log]; auto; intros; rewrite nexts_app; cbn [nexts]; rewrite app_nil_r; auto.
  - destruct (nth_error (fw_facs w) i) as [[k f]|] eqn:E; [|auto]. destruct (make c k f w) as [w' r] eqn:M. cbn [fst].
    pose proof (Lf i k f E). split; [eapply make_inv; eauto; lia|eapply make_ginv; eauto].
  - destruct (nth_error (fw_facs w) i) as [[k f]|] eqn:E; [|auto]. split; [apply Inv_same; exact I|].
    destruct G as [A B C]. constructor; cbn [fw_files fw_facs fw_gens fw_log]; auto.
    + intros g j s J. destruct (Nat.lt_ge_cases g (List.length (fw_gens w))) as [F|F].
      * rewrite nth_error_app1 in J by exact F. auto.
      * rewrite nth_error_app2 in J by exact F. destruct (g - List.length (fw_gens w))%nat as [|m].
        -- injection J as <- <-. split; [apply nth_error_Some; congruence|]. apply C. exact F.
        -- cbn in J. destruct m; discriminate.
    + intros g F. apply C. rewrite app_length in F. lia.
  - destruct (nth_error (fw_gens w) g) as [[i s]|] eqn:Eg; [|auto].
    destruct (nth_error (fw_facs w) i) as [[k f]|] eqn:E; [|auto].
    destruct (gen_next (make c k f) no_spill text_caught s w) as [[s' w'] o] eqn:Q.
    pose proof (Lf i k f E) as Lk.
    destruct (next_ind c k f (fun v => Inv c (opened p) v /\ GInv v /\ fw_facs v = fw_facs w /\ fw_gens v = fw_gens w /\
        List.length (fw_files v) = List.length (fw_files w) /\ forall j, nexts j (fw_log v) = nexts j (fw_log w))) with (s := s) (w := w) (s' := s') (w' := w') (o := o)
      as ((I' & G' & H1 & H2 & H3 & H4) & -> & Hend); auto.
    { intros v v' r (Iv & Gv & V1 & V2 & V3 & V4) M. assert (Lv : (f < List.length (fw_files v))%nat) by lia.
      destruct (make_keeps c k f v v' r M Lv) as (U1 & U2 & U3).
      split; [eapply make_inv; eauto; lia|]. split; [eapply make_ginv; eauto|]. split; [congruence|]. split; [congruence|]. split; [congruence|].
      intros j. rewrite (make_nexts c k f v v' r j M). apply V4. }
    { split; auto. }
    split; [apply Inv_other; [exact I'|discriminate|discriminate]|].
    assert (Lg : (g < List.length (fw_gens w))%nat) by (apply nth_error_Some; congruence).
    assert (Lg' : (g < List.length (fw_gens w'))%nat) by (rewrite H2; exact Lg).
    destruct G' as [A B C]. constructor; cbn [fw_files fw_facs fw_gens fw_log]; auto.
    + intros g' j s1 J. rewrite nexts_app. cbn [nexts]. destruct (Nat.eqb_spec g g') as [<-|Ne].
      * rewrite set_nth_same in J by lia. injection J as <- <-. split; [rewrite H1; apply nth_error_Some; congruence|].
        rewrite H4. destruct (g_gen w G g i s Eg) as (_ & Sy). destruct s; cbn [gen_says] in Sy.
        -- rewrite Sy. exists o, []. auto.
        -- destruct Sy as (o1 & r & -> & Fr). exists o1, (r ++ [o]). split; [reflexivity|]. apply Forall_app. split; [exact Fr|].
           apply Forall_cons; [apply Hend; reflexivity|apply Forall_nil].
      * rewrite set_nth_other in J by (auto; lia). rewrite app_nil_r. auto.
    + intros g' F. rewrite set_nth_length in F by lia. rewrite nexts_app. cbn [nexts]. destruct (Nat.eqb_spec g g') as [<-|Ne]; [lia|].
      rewrite app_nil_r. auto.
  - destruct (Nat.ltb_spec f (List.length (fw_files w))) as [F|F]; cbn [negb]; [|auto].
    destruct (kind_ok k) eqn:K.
    + destruct (make c k f w) as [w' r] eqn:M. cbn [fst]. split; [eapply make_inv; eauto; lia|eapply make_ginv; eauto].
    + split; [apply Inv_other; [exact I|discriminate|discriminate]|]. destruct G as [A B C].
      constructor; unfold key_error; cbn [fw_files fw_facs fw_gens fw_log]; auto; intros; rewrite nexts_app; cbn [nexts]; rewrite app_nil_r; auto.
Qed.

Lemma frun_inv c p : Inv c (opened p) (frun c p) /\ GInv (frun c p).
Proof.
  induction p as [|o p [IH1 IH2]] using rev_ind.
  - unfold frun. cbn [fold_left opened]. split; constructor; cbn [fw_new fw_files fw_facs fw_gens fw_bad fw_log requests nexts warned]; auto.
    + intros f ls E. destruct f; discriminate.
    + constructor.
    + intros p. split; [intros []|]. intros (f & fmt & h & [] & _).
    + intros k f [].
    + intros g i s E. destruct g; discriminate.
  - unfold frun in *. rewrite fold_left_app. cbn [fold_left]. apply step_inv; assumption.
Qed.
