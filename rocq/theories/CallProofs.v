(** Proofs about calls of get_weight and set_weight. *)
From Coq Require Import Reals ZArith String List Bool Permutation Lia Lra.
From Verif Require Import Num WeightModel WeightProofs HitcoreModel HitcoreProofs WeightSpec CallModel CallSpec.
Import ListNotations.
Open Scope string_scope.
Open Scope list_scope.

Ltac nodup := repeat (constructor; [simpl; intuition discriminate|]); constructor.

Section Parse.
  Context {N : NumOps}.
  Notation Val := (PyVal N).

  Lemma assoc_none {A} (l : list (string * A)) k : ~ In k (map fst l) -> assoc l k = None.
  Proof.
    induction l as [|[k' v] l IH]; simpl; auto. intros H.
    destruct (String.eqb_spec k' k); [exfalso; auto|apply IH; auto].
  Qed.

  Lemma assoc_some_in {A} (l : list (string * A)) k v : assoc l k = Some v -> In (k, v) l.
  Proof.
    induction l as [|[k' v'] l IH]; simpl; [discriminate|].
    destruct (String.eqb_spec k' k); [intros E; inversion E; subst; auto|auto].
  Qed.

  Lemma assoc_in_some {A} (l : list (string * A)) k v : NoDup (map fst l) -> In (k, v) l -> assoc l k = Some v.
  Proof.
    induction l as [|[k' v'] l IH]; simpl; [tauto|]. intros D H. inversion D; subst.
    destruct (String.eqb_spec k' k) as [-> | E].
    - destruct H as [H|H]; [congruence|]. exfalso. apply H2. apply (in_map fst) in H. exact H.
    - destruct H as [H|H]; [congruence|auto].
  Qed.

  Lemma assoc_perm {A} (l l' : list (string * A)) k : NoDup (map fst l) -> Permutation l l' -> assoc l k = assoc l' k.
  Proof.
    intros D P. assert (D' : NoDup (map fst l')) by (eapply Permutation_NoDup; [apply Permutation_map, P|exact D]).
    destruct (assoc l k) as [v|] eqn:E.
    - symmetry. apply assoc_in_some; auto. eapply Permutation_in; [exact P|]. apply assoc_some_in, E.
    - destruct (assoc l' k) as [v|] eqn:E'; auto. exfalso.
      apply assoc_some_in in E'. apply Permutation_sym in P. apply (Permutation_in _ P) in E'.
      rewrite (assoc_in_some _ _ _ D E') in E. discriminate.
  Qed.

  Lemma loop_ext us : forall names (args : list Val) kw kw' nkw f,
    (forall k, assoc kw k = assoc kw' k) -> parse_loop us names args kw nkw f = parse_loop us names args kw' nkw f.
  Proof.
    induction us as [|u us IH]; intros names args kw kw' nkw f H; destruct names as [|k names]; simpl; auto.
    destruct args as [|a args].
    - destruct nkw; auto. rewrite H. destruct (assoc kw' k); [destruct (convert u p f); auto|auto].
    - destruct (convert u a f); auto.
  Qed.

  Lemma parse_perm us names (args : list Val) kw kw' : NoDup (map fst kw') -> Permutation kw kw' ->
    parse us names args kw = parse us names args kw'.
  Proof.
    intros D P. unfold parse. rewrite (Permutation_length P).
    erewrite loop_ext; [reflexivity|]. intros k. symmetry. apply assoc_perm; auto. apply Permutation_sym, P.
  Qed.

  Lemma int_arg_ok z : c_int z -> int_arg (PInt z : Val) = Some z.
  Proof.
    unfold int_arg, c_int. intros [H1 H2]. apply Z.leb_le in H1. apply Z.ltb_lt in H2. rewrite H1, H2. reflexivity.
  Qed.
  Lemma int_arg_inv (v : Val) z : int_arg v = Some z -> is_c_int v.
  Proof.
    unfold int_arg. destruct v as [|z'|]; try discriminate.
    destruct (_ && _)%bool eqn:E; [|discriminate]. intros _. apply andb_true_iff in E. destruct E as [E1 E2].
    exists z'. split; auto. split; [apply Z.leb_le, E1|apply Z.ltb_lt, E2].
  Qed.

  (** What a unit accepts. *)
  Definition unit_ok (u : Unit) (v : Val) : Prop :=
    match u with DWeightArg => (exists n, v = PFloat n) \/ (exists z, v = PInt z) | _ => is_c_int v end.
  Lemma convert_inv u v f f' : convert u v f = Some f' -> unit_ok u v.
  Proof.
    destruct u; simpl.
    - unfold dbl_arg. destruct v; simpl; try discriminate; eauto.
    - destruct (int_arg v) eqn:E; [|discriminate]. intros _. eapply int_arg_inv, E.
    - destruct (int_arg v) eqn:E; [|discriminate]. intros _. eapply int_arg_inv, E.
    - destruct (int_arg v) eqn:E; [|discriminate]. intros _. eapply int_arg_inv, E.
  Qed.

  (** A parse that succeeds has used every argument. *)
  Definition ends (r : Parsed N) (f : Frame N) : Prop := r = PDone f \/ r = PEnd [] O f.
  Lemma loop_used us : forall names (args : list Val) kw nkw f f',
    (List.length args <= List.length names)%nat ->
    ends (parse_loop us names args kw nkw f) f' -> NoDup names ->
    Forall2 unit_ok (firstn (List.length args) us) args /\
    exists F, incl F (skipn (List.length args) (combine us names)) /\ NoDup (map snd F) /\ List.length F = nkw /\
      forall u k, In (u, k) F -> exists v, assoc kw k = Some v /\ unit_ok u v.
  Proof.
    induction us as [|u us IH]; intros names args kw nkw f f' L H D; destruct names as [|k names]; simpl in H.
    - destruct args; simpl in L; [|lia]. split; [constructor|]. destruct H as [H|H]; inversion H; subst.
      exists []. split; [intros x []|]. split; [constructor|]. split; [reflexivity|]. intros u0 k0 [].
    - destruct H; discriminate.
    - destruct H; discriminate.
    - destruct args as [|a args].
      + split; [constructor|]. destruct nkw as [|m].
        { exists []. split; [intros x []|]. split; [constructor|]. split; [reflexivity|]. intros u0 k0 []. }
        inversion D as [|? ? D1 D2]; subst.
        destruct (assoc kw k) as [v|] eqn:E.
        * destruct (convert u v f) as [f1|] eqn:C; [|destruct H; discriminate].
          destruct (IH names [] kw m f1 f' ltac:(simpl; lia) H D2) as [_ (F & I & ND & LF & HF)].
          exists ((u, k) :: F). simpl in I |- *. repeat split.
          -- intros x [<- |Hx]; [left; auto|right; apply I, Hx].
          -- constructor; auto. intros Hk. apply D1.
             apply in_map_iff in Hk. destruct Hk as ([u0 k0] & E0 & Hk). simpl in E0. subst.
             apply I in Hk. eapply in_combine_r, Hk.
          -- rewrite LF. reflexivity.
          -- intros u0 k0 [E0|Hx]; [inversion E0; subst; exists v; split; auto; eapply convert_inv, C|apply HF, Hx].
        * destruct (IH names [] kw (S m) f f' ltac:(simpl; lia) H D2) as [_ (F & I & ND & LF & HF)].
          exists F. simpl in I |- *. repeat split; auto. intros x Hx. right. apply I, Hx.
      + destruct (convert u a f) as [f1|] eqn:C; [|destruct H; discriminate].
        inversion D as [|? ? D1 D2]; subst. simpl in L.
        destruct (IH names args kw nkw f1 f' ltac:(lia) H D2) as [HA (F & I & ND & LF & HF)].
        split; [simpl; constructor; auto; eapply convert_inv, C|].
        exists F. simpl. auto.
  Qed.

  Lemma used_all us names (args : list Val) kw f : (List.length args <= List.length names)%nat ->
    ends (parse_loop us names args kw (List.length kw) frame0) f -> NoDup names -> NoDup (map fst kw) ->
    Forall2 unit_ok (firstn (List.length args) us) args /\
    forall k v, In (k, v) kw -> exists u, In (u, k) (skipn (List.length args) (combine us names)) /\ unit_ok u v.
  Proof.
    intros LA E D D'.
    destruct (loop_used _ _ _ _ _ _ _ LA E D) as [HA (F & I & ND & LF & HF)].
    split; auto. intros k v Hk.
    assert (HI : incl (map fst kw) (map snd F)).
    { apply NoDup_length_incl; auto; [rewrite !map_length; lia|].
      intros k0 Hk0. apply in_map_iff in Hk0. destruct Hk0 as ([u0 k1] & E0 & Hk0). simpl in E0. subst.
      destruct (HF _ _ Hk0) as (v0 & Ev & _). apply assoc_some_in in Ev. apply (in_map fst) in Ev. exact Ev. }
    assert (Hk' : In k (map snd F)) by (apply HI; apply (in_map fst) in Hk; exact Hk).
    apply in_map_iff in Hk'. destruct Hk' as ([u k1] & E0 & Hk'). simpl in E0. subst.
    exists u. split; [apply I, Hk'|]. destruct (HF _ _ Hk') as (v0 & Ev & Hu).
    rewrite (assoc_in_some _ _ _ D' Hk) in Ev. inversion Ev. subst. exact Hu.
  Qed.

  Lemma parse_used us names (args : list Val) kw f : NoDup names -> NoDup (map fst kw) ->
    parse us names args kw = Some f ->
    Forall2 unit_ok (firstn (List.length args) us) args /\
    forall k v, In (k, v) kw -> exists u, In (u, k) (skipn (List.length args) (combine us names)) /\ unit_ok u v.
  Proof.
    unfold parse. intros D D' H. destruct (Nat.ltb _ _) eqn:L; [discriminate|]. apply Nat.ltb_ge in L.
    assert (E : ends (parse_loop us names args kw (List.length kw) frame0) f).
    { destruct (parse_loop _ _ _ _ _ _) as [|f1|us1 nk f1]; [discriminate|inversion H; left; auto|].
      destruct us1; [|discriminate]. destruct nk; [|discriminate]. inversion H. right. reflexivity. }
    assert (LA : (List.length args <= List.length names)%nat) by lia.
    apply (used_all _ _ _ _ _ LA E D D').
  Qed.

  Lemma keywords_nodup : NoDup keywords.
  Proof. unfold keywords. repeat (constructor; [simpl; intuition discriminate|]). constructor. Qed.

  Lemma forall2_right {A B} (P : A -> B -> Prop) (Q : B -> Prop) l m :
    Forall2 P l m -> (forall a b, In a l -> P a b -> Q b) -> Forall Q m.
  Proof. induction 1; intros H1; constructor; simpl in *; eauto. Qed.
  Lemma firstn_in {A} n (l : list A) x : In x (firstn n l) -> In x l.
  Proof. intros H. rewrite <- (firstn_skipn n l). apply in_or_app. auto. Qed.

  (** ---- get_weight ---- *)
  Ltac ints :=
    repeat (progress cbn -[int_arg dbl_arg] ||
            (rewrite int_arg_ok by assumption) ||
            match goal with H : dbl_arg _ = Some _ |- _ => rewrite H end);
    reflexivity.
  Lemma get_passes (c : Context N) s e p ke kp args kw :
    c_int s -> c_int e -> c_int p -> event_name ke -> particle_name kp ->
    passes ["spill"; ke; kp] [PInt s; PInt e; PInt p] args kw ->
    call_get c args kw = Returned (get_weight c (mkHitId s e p)).
  Proof.
    intros Hs He Hp Hke Hkp (k & Lk & -> & P). unfold call_get.
    assert (D : NoDup (map fst (skipn k (combine ["spill"; ke; kp] [PInt s; PInt e; PInt p : Val])))).
    { destruct k as [|[|[|[|k]]]]; [| | | |simpl in Lk; lia];
        destruct Hke as [-> | ->], Hkp as [-> | ->]; simpl; nodup. }
    rewrite (parse_perm _ _ _ _ _ D P).
    destruct k as [|[|[|[|k]]]]; [| | | |simpl in Lk; lia];
      destruct Hke as [-> | ->], Hkp as [-> | ->]; ints.
  Qed.

  Lemma get_four (c : Context N) s e p e' : c_int s -> c_int e -> c_int p -> c_int e' ->
    call_get c [PInt s; PInt e; PInt p; PInt e'] [] = Returned (get_weight c (mkHitId s e' p)).
  Proof. intros. unfold call_get. ints. Qed.
  Lemma get_five (c : Context N) s e p e' p' : c_int s -> c_int e -> c_int p -> c_int e' -> c_int p' ->
    call_get c [PInt s; PInt e; PInt p; PInt e'; PInt p'] [] = Returned (get_weight c (mkHitId s e' p')).
  Proof. intros. unfold call_get. ints. Qed.

  Lemma get_short (c : Context N) args : (List.length args < 3)%nat -> Forall is_c_int args ->
    call_get c args [] = Undefined.
  Proof.
    intros L H. unfold call_get.
    destruct args as [|a1 [|a2 [|a3 args]]]; [reflexivity| | |simpl in L; lia].
    - inversion H as [|? ? (z & -> & Hz) _]; subst. ints.
    - inversion H as [|? ? (z & -> & Hz) H2]; subst. inversion H2 as [|? ? (z2 & -> & Hz2) _]; subst. ints.
  Qed.

  Lemma get_returned (c : Context N) args kw x : NoDup (map fst kw) -> call_get c args kw = Returned x ->
    Forall is_c_int args /\ (forall k v, In (k, v) kw -> In k keywords /\ is_c_int v).
  Proof.
    intros D. unfold call_get. destruct (parse _ _ _ _) as [f|] eqn:E; [|discriminate]. intros _.
    destruct (parse_used _ _ _ _ _ keywords_nodup D E) as [HA HK]. split.
    - eapply forall2_right; [exact HA|]. intros u v Hu Hv. apply firstn_in in Hu.
      destruct u; auto. simpl in Hu. intuition discriminate.
    - intros k v Hk. destruct (HK k v Hk) as (u & Hu & Hv).
      assert (Hu' : In (u, k) (combine [ISpillArg; IEventArg; IParticleArg; IEventArg; IParticleArg] keywords)).
      { rewrite <- (firstn_skipn (List.length args)). apply in_or_app. right. exact Hu. }
      split; [eapply in_combine_r, Hu'|].
      apply in_combine_l in Hu'. destruct u; auto. simpl in Hu'. intuition discriminate.
  Qed.

  (** ---- set_weight ---- *)
  Lemma set_passes (c : Context N) v w s e p args kw :
    as_double v = (w, true) -> c_int s -> c_int e -> c_int p ->
    passes ["spill"; "event_number"; "particle_number"; "eventNumber"] [v; PInt s; PInt e; PInt p] args kw ->
    call_set c args kw = Returned (set_weight c (mkHitId s e p) w).
  Proof.
    intros Hv Hs He Hp (k & Lk & -> & P). unfold call_set.
    assert (Hd : dbl_arg v = Some w) by (unfold dbl_arg; rewrite Hv; reflexivity).
    assert (D : NoDup (map fst (skipn k (combine ["spill"; "event_number"; "particle_number"; "eventNumber"]
                                           [v; PInt s; PInt e; PInt p])))).
    { destruct k as [|[|[|[|[|k]]]]]; [| | | | |simpl in Lk; lia]; simpl; nodup. }
    rewrite (parse_perm _ _ _ _ _ D P).
    destruct k as [|[|[|[|[|k]]]]]; [| | | | |simpl in Lk; lia]; ints.
  Qed.

  (** Weight by position, the hit by the names that get_weight has for it. *)
  Lemma set_named (c : Context N) v w s e p ke kp args kw :
    as_double v = (w, true) -> c_int s -> c_int e -> c_int p -> event_name ke -> particle_name kp ->
    passes ["spill"; ke; kp] [PInt s; PInt e; PInt p] args kw -> kw <> [] ->
    call_set c (v :: args) kw =
      if (Nat.eqb (List.length args) 1 && String.eqb ke "eventNumber" && String.eqb kp "particle_number")%bool
      then Returned (set_weight c (mkHitId s p e) w) else Raised.
  Proof.
    intros Hv Hs He Hp Hke Hkp (k & Lk & -> & P) Hn. unfold call_set.
    assert (Hd : dbl_arg v = Some w) by (unfold dbl_arg; rewrite Hv; reflexivity).
    assert (D : NoDup (map fst (skipn k (combine ["spill"; ke; kp] [PInt s; PInt e; PInt p : Val])))).
    { destruct k as [|[|[|[|k]]]]; [| | | |simpl in Lk; lia];
        destruct Hke as [-> | ->], Hkp as [-> | ->]; simpl; nodup. }
    rewrite (parse_perm _ _ _ _ _ D P).
    destruct k as [|[|[|[|k]]]]; [| | | |simpl in Lk; lia].
    - destruct Hke as [-> | ->], Hkp as [-> | ->]; ints.
    - destruct Hke as [-> | ->], Hkp as [-> | ->]; ints.
    - destruct Hke as [-> | ->], Hkp as [-> | ->]; ints.
    - exfalso. apply Hn. apply Permutation_sym, Permutation_nil in P. exact P.
  Qed.

  Lemma loop_before_last names : forall us (args : list Val) kw nkw f k f',
    (List.length names <= List.length us)%nat ->
    parse_loop us (names ++ [k]) args kw nkw f = PDone f' ->
    (List.length args <= List.length names)%nat /\
    ends (parse_loop (firstn (List.length names) us) names args kw nkw f) f'.
  Proof.
    induction names as [|k0 names IH]; intros us args kw nkw f k f' L H; simpl in H.
    - destruct us as [|u us]; [discriminate|]. simpl in H. destruct args as [|a args].
      + destruct nkw as [|m].
        * inversion H; subst. simpl. split; [lia|]. right. reflexivity.
        * destruct (assoc kw k) as [v|]; [destruct (convert u v f); [|discriminate]|];
            destruct us; simpl in H; discriminate.
      + destruct (convert u a f); [|discriminate]. destruct us; simpl in H; discriminate.
    - destruct us as [|u us]; [discriminate|]. simpl in H. simpl in L |- *. destruct args as [|a args].
      + split; [simpl; lia|]. destruct nkw as [|m].
        * inversion H. left. reflexivity.
        * destruct (assoc kw k0) as [v|]; [destruct (convert u v f); [|discriminate]|];
            eapply IH; eauto; lia.
      + destruct (convert u a f) as [f1|]; [|discriminate].
        destruct (IH us args kw nkw f1 k f' ltac:(lia) H) as [H1 H2]. split; [simpl; lia|exact H2].
  Qed.

  Lemma loop_units us : forall names (args : list Val) kw nkw f m f',
    (List.length names < List.length us)%nat -> parse_loop us names args kw nkw f <> PEnd [] m f'.
  Proof.
    induction us as [|u us IH]; intros names args kw nkw f m f' L; [simpl in L; lia|].
    destruct names as [|k names]; [discriminate|]. simpl in L |- *. destruct args as [|a args].
    - destruct nkw; [discriminate|]. destruct (assoc kw k) as [v|]; [destruct (convert u v f); [|discriminate]|];
        apply IH; lia.
    - destruct (convert u a f); [|discriminate]. apply IH. lia.
  Qed.

  Lemma set_returned (c : Context N) args kw c' : NoDup (map fst kw) -> call_set c args kw = Returned c' ->
    Forall2 unit_ok (firstn (List.length args) [DWeightArg; ISpillArg; IEventArg; IParticleArg]) args /\
    (forall k v, In (k, v) kw ->
       In k ["spill"; "event_number"; "particle_number"; "eventNumber"] /\ (k <> "spill" -> is_c_int v)).
  Proof.
    intros D. unfold call_set.
    set (us := [DWeightArg; ISpillArg; IEventArg; IParticleArg; IEventArg; IParticleArg]).
    destruct (parse us keywords args kw) as [f|] eqn:E; [|discriminate]. intros _.
    assert (Q : parse_loop us keywords args kw (List.length kw) frame0 = PDone f).
    { unfold parse in E. destruct (Nat.ltb _ _); [discriminate|].
      destruct (parse_loop us keywords args kw (List.length kw) frame0) as [|f1|us1 m f1] eqn:Q; [discriminate|congruence|].
      destruct us1; [|discriminate]. exfalso. revert Q. apply loop_units. simpl. lia. }
    change keywords with (["spill"; "event_number"; "particle_number"; "eventNumber"] ++ ["particleNumber"]) in Q.
    apply loop_before_last in Q; [|simpl; lia]. destruct Q as [LA Q].
    set (us4 := [DWeightArg; ISpillArg; IEventArg; IParticleArg]).
    set (ns4 := ["spill"; "event_number"; "particle_number"; "eventNumber"]) in *.
    change (firstn (List.length ns4) us) with us4 in Q.
    assert (ND : NoDup ns4) by (unfold ns4; nodup).
    destruct (used_all _ _ _ _ _ LA Q ND D) as [HA HK]. split; [exact HA|].
    intros k v Hk. destruct (HK k v Hk) as (u & Hu & Hv).
    assert (Hu' : In (u, k) (combine us4 ns4)).
    { rewrite <- (firstn_skipn (List.length args)). apply in_or_app. right. exact Hu. }
    split; [eapply in_combine_r, Hu'|].
    intros Hne. unfold us4, ns4 in Hu'. simpl in Hu'.
    destruct Hu' as [Hq|[Hq|[Hq|[Hq|[]]]]]; inversion Hq; subst; [congruence|exact Hv|exact Hv|exact Hv].
  Qed.
End Parse.

(** ---- comparison ---- *)
Section Compare.
  Local Open Scope R_scope.
  Notation N := RNum.

  Lemma store_empty_ok : store_ok N store_empty.
  Proof. split; simpl; discriminate. Qed.

  Lemma run_store_ok (p : list (Stmt N)) : forall s, store_ok N s -> store_ok N (run s p).
  Proof.
    induction p as [|st p IH]; simpl; auto. intros s H. apply IH.
    destruct (exec s st) eqn:E; auto. eapply exec_store_ok; eauto.
  Qed.

  Lemma same_iff (s : Store N) x y cx cy : store_ok N s -> read_var s x = Some cx -> read_var s y = Some cy ->
    (rich_compare s x (Some y) CmpEq = Some true <->
     forall id w, exists s' c', mutate s x (fun c => set_weight c id w) = Some s' /\
       read_var s' y = Some c' /\ get_weight c' id = w).
  Proof.
    intros Ho Hx Hy. pose proof (read_var_ok _ _ _ _ Ho Hx) as Ox.
    unfold rich_compare, mutate. unfold read_var in *.
    destruct (st_env s x) as [a|] eqn:Ea; [|discriminate]. destruct (st_env s y) as [b|] eqn:Eb; [|discriminate].
    rewrite Hx. destruct (Nat.eqb_spec a b) as [<- | Hab].
    - split; auto. intros _ id w. eexists. eexists. split; [reflexivity|]. simpl. rewrite Eb, fupd_same.
      split; [reflexivity|]. rewrite get_weight_set by exact Ox. destruct (hid_dec id id); [reflexivity|congruence].
    - split; [discriminate|]. intros H. exfalso.
      destruct (H (mkHitId 0 0 0) (get_weight cy (mkHitId 0 0 0) + 1)) as (s' & c' & E & E1 & E2).
      inversion E; subst; clear E. simpl in E1. rewrite Eb in E1. rewrite fupd_other in E1 by exact Hab.
      rewrite Hy in E1. inversion E1; subst. clear - E2. revert E2. generalize (get_weight c' (mkHitId 0 0 0)). intros r E. lra.
  Qed.
End Compare.
