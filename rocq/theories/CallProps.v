(** C82: WeightContext.get_weight and set_weight as they are called, and comparing contexts. *)
From Coq Require Import Reals ZArith String List Bool Permutation Lia Lra.
From Verif Require Import Num WeightSpec WeightModel WeightProofs HitcoreModel HitcoreProofs CallModel CallSpec CallProofs.
Import ListNotations.
Open Scope string_scope.
Open Scope list_scope.

Section C82.
  Context {N : NumOps}.

  (** get_weight(spill, event, particle) returns the weight of that hit, however many of the three are
      given by position and under whichever spelling and in whichever order the others are named. *)
  Theorem C82_get (c : Context N) s e p ke kp args kw :
    c_int s -> c_int e -> c_int p -> event_name ke -> particle_name kp ->
    passes ["spill"; ke; kp] [PInt s; PInt e; PInt p] args kw ->
    call_get c args kw = Returned (get_weight c (mkHitId s e p)).
  Proof. apply get_passes. Qed.

  (** A call of get_weight that returns has only been given C ints, under the five known names. *)
  Theorem C82_get_checks (c : Context N) args kw x : NoDup (map fst kw) -> call_get c args kw = Returned x ->
    Forall is_c_int args /\
    (forall k v, In (k, v) kw ->
       (k = "spill" \/ event_name k \/ particle_name k) /\ is_c_int v).
  Proof.
    intros D H. destruct (get_returned _ _ _ _ D H) as [H1 H2]. split; auto.
    intros k v Hk. destruct (H2 k v Hk) as [H3 H4]. split; auto.
    unfold event_name, particle_name. simpl in H3. intuition.
  Qed.

  (** set_weight(weight, spill, event, particle) by position sets the weight of that hit and of no
      other; the names that work are each one too late in the list: spill for the weight,
      event_number for the spill, particle_number for the event and eventNumber for the particle. *)
  Theorem C82_set (c : Context N) v w s e p args kw :
    obtainable c -> as_double v = (w, true) -> c_int s -> c_int e -> c_int p ->
    passes ["spill"; "event_number"; "particle_number"; "eventNumber"] [v; PInt s; PInt e; PInt p] args kw ->
    exists c', call_set c args kw = Returned c' /\
      get_weight c' (mkHitId s e p) = w /\
      (forall id, id <> mkHitId s e p -> get_weight c' id = get_weight c id) /\
      get_default_weight c' = get_default_weight c.
  Proof.
    intros O%obtainable_ok Hv Hs He Hp H. eexists. split; [exact (set_passes c _ _ _ _ _ _ _ Hv Hs He Hp H)|].
    split; [|split].
    - rewrite get_weight_set by exact O. destruct (hid_dec _ _); congruence.
    - intros id Hid. rewrite get_weight_set by exact O. destruct (hid_dec _ _); congruence.
    - reflexivity.
  Qed.

  (** A call of set_weight that returns has been given at most four positional arguments, and no
      keyword other than those. *)
  Theorem C82_set_checks (c : Context N) args kw c' : NoDup (map fst kw) -> call_set c args kw = Returned c' ->
    (List.length args <= 4)%nat /\ Forall is_c_int (tl args) /\
    (forall k v, In (k, v) kw ->
       In k ["spill"; "event_number"; "particle_number"; "eventNumber"] /\ (k <> "spill" -> is_c_int v)).
  Proof.
    intros D H. destruct (set_returned _ _ _ _ D H) as [H1 H2]. split; [|split; [|exact H2]].
    - assert (L : List.length args = List.length (firstn (List.length args) [DWeightArg; ISpillArg; IEventArg; IParticleArg])).
      { clear -H1. induction H1; simpl; auto. }
      rewrite L, firstn_length. simpl. lia.
    - destruct args as [|a args]; [constructor|]. simpl in H1 |- *. inversion H1; subst.
      eapply forall2_right; [eassumption|]. intros u v Hu Hv. apply firstn_in in Hu. simpl in Hu.
      destruct u; auto. intuition discriminate.
  Qed.

  (** Naming the hit as get_weight does never sets its weight: the call raises and changes nothing,
      except set_weight(w, s, eventNumber = e, particle_number = p), which without an error sets the
      weight of the hit with event and particle exchanged. *)
  Theorem C82_set_names_refuted (c : Context N) v w s e p ke kp args kw :
    as_double v = (w, true) -> c_int s -> c_int e -> c_int p -> event_name ke -> particle_name kp ->
    passes ["spill"; ke; kp] [PInt s; PInt e; PInt p] args kw -> kw <> [] ->
    (args = [PInt s] /\ ke = "eventNumber" /\ kp = "particle_number" /\
     call_set c (v :: args) kw = Returned (set_weight c (mkHitId s p e) w)) \/
    (~ (List.length args = 1%nat /\ ke = "eventNumber" /\ kp = "particle_number") /\
     call_set c (v :: args) kw = Raised).
  Proof.
    intros Hv Hs He Hp Hke Hkp P Hn. rewrite (set_named c v w s e p ke kp args kw) by assumption.
    destruct (Nat.eqb_spec (List.length args) 1) as [L|L]; simpl; [|right; split; [tauto|reflexivity]].
    destruct (String.eqb_spec ke "eventNumber") as [E|E]; simpl; [|right; split; [tauto|reflexivity]].
    destruct (String.eqb_spec kp "particle_number") as [E2|E2]; simpl; [|right; split; [tauto|reflexivity]].
    left. destruct P as (k & Lk & -> & _). destruct k as [|[|k]]; simpl in L; try discriminate.
    auto.
  Qed.

  (** Arguments that are not given are not noticed: get_weight with fewer than three reads variables
      that were never set. *)
  Theorem C82_missing_refuted (c : Context N) args : (List.length args < 3)%nat -> Forall is_c_int args ->
    call_get c args [] = Undefined.
  Proof. apply get_short. Qed.

  (** Neither are superfluous ones: get_weight(s, e, p, e') reads the hit with event e'. *)
  Theorem C82_extra_refuted (c : Context N) s e p e' p' : c_int s -> c_int e -> c_int p -> c_int e' -> c_int p' ->
    call_get c [PInt s; PInt e; PInt p; PInt e'] [] = Returned (get_weight c (mkHitId s e' p)) /\
    call_get c [PInt s; PInt e; PInt p; PInt e'; PInt p'] [] = Returned (get_weight c (mkHitId s e' p')).
  Proof. intros. split; [apply get_four|apply get_five]; assumption. Qed.
End C82.

(** After any program, x == y holds exactly if the two are one object: a weight set through x is
    always seen through y. *)
Theorem C82_compare (p : list (Stmt RNum)) x y cx cy (s := run store_empty p) :
  read_var s x = Some cx -> read_var s y = Some cy ->
  (rich_compare s x (Some y) CmpEq = Some true <->
   forall id w, exists s' c', mutate s x (fun c => set_weight c id w) = Some s' /\
     read_var s' y = Some c' /\ get_weight c' id = w).
Proof. intros Hx Hy. apply (same_iff s x y cx cy); auto. apply run_store_ok, store_empty_ok. Qed.

(** != is the negation. *)
Theorem C82_compare_ne {N : NumOps} (s : Store N) x y :
  rich_compare s x (Some y) CmpNe = option_map negb (rich_compare s x (Some y) CmpEq).
Proof. unfold rich_compare. destruct (st_env s x), (st_env s y); reflexivity. Qed.

(** So equality of contexts is not equality of weights: two contexts made separately differ, although
    no hit has a different weight in them. *)
Theorem C82_compare_refuted {N : NumOps} x y : x <> y ->
  exists cx cy, let s := run (store_empty : Store N) [SNew x; SNew y] in
    read_var s x = Some cx /\ read_var s y = Some cy /\ (forall id, get_weight cx id = get_weight cy id) /\
    rich_compare s x (Some y) CmpEq = Some false.
Proof.
  intros H. exists ctx_new, ctx_new. simpl. unfold read_var, rich_compare. simpl.
  unfold fupd. apply not_eq_sym, Nat.eqb_neq in H. rewrite H, !Nat.eqb_refl. simpl. auto.
Qed.

(** Cases. *)
Definition ex82 : Context ZNum := set_weight (N := ZNum) (set_weight (N := ZNum) ctx_new (mkHitId 1 2 3) 7%Z) (mkHitId 1 3 2) 9%Z.
Example C82_obtainable : obtainable ex82.
Proof. exists [SNew 0; SSetWeight 0 (mkHitId 1 2 3) (7%Z : ZNum); SSetWeight 0 (mkHitId 1 3 2) (9%Z : ZNum)], 0%nat. reflexivity. Qed.
Example C82_passes : passes (V := PyVal ZNum) ["spill"; "eventNumber"; "particle_number"] [PInt 1; PInt 2; PInt 3]
  [PInt 1%Z] [("particle_number", PInt 3%Z); ("eventNumber", PInt 2%Z)].
Proof. exists 1%nat. split; [simpl; lia|]. split; [reflexivity|]. simpl. apply perm_swap. Qed.
Example C82_get_case : call_get ex82 [PInt 1%Z] [("particle_number", PInt 3%Z); ("eventNumber", PInt 2%Z)] = Returned 7%Z.
Proof. reflexivity. Qed.
(** set_weight(5, 1, particle_number = 3, eventNumber = 2): the weight of (1, 2, 3) stays, that of
    (1, 3, 2) changes. *)
Example C82_swap_case : exists c',
  call_set ex82 [PInt 5%Z; PInt 1%Z] [("particle_number", PInt 3%Z); ("eventNumber", PInt 2%Z)] = Returned c' /\
  get_weight c' (mkHitId 1 2 3) = 7%Z /\ get_weight c' (mkHitId 1 3 2) = 5%Z.
Proof. eexists. split; [reflexivity|]. split; reflexivity. Qed.
Example C82_set_case : exists c', call_set ex82 [PInt 5%Z; PInt 1%Z; PInt 2%Z; PInt 3%Z] [] = Returned c' /\
  get_weight c' (mkHitId 1 2 3) = 5%Z.
Proof. eexists. split; reflexivity. Qed.
Example C82_compare_case : let s := run (store_empty : Store ZNum) [SNew 0; SAlias 1 0; SNew 2] in
  rich_compare s 0 (Some 1) CmpEq = Some true /\ rich_compare s 0 (Some 2) CmpEq = Some false /\
  rich_compare s 0 None CmpEq = None.
Proof. repeat split. Qed.

Print Assumptions C82_get.
Print Assumptions C82_get_checks.
Print Assumptions C82_set.
Print Assumptions C82_set_checks.
Print Assumptions C82_set_names_refuted.
Print Assumptions C82_missing_refuted.
Print Assumptions C82_extra_refuted.
Print Assumptions C82_compare.
Print Assumptions C82_compare_ne.
Print Assumptions C82_compare_refuted.
