(** Model of copying and comparing bunches: xboa/bunch/_bunch.py 84-109, 139-181, 602-611.
    Line numbers refer to it. *)
From Coq Require Import Reals ZArith List Bool String.
From Verif Require Import Num WeightModel HitcoreModel HitPyModel BunchModel BunchNumModel.
Import ListNotations.
Open Scope list_scope.

Section Copy.
  Context {N : NumOps}.

  (** 175-178: the loop of new_from_hits; [None]: a hit cannot be copied (not a hit, or the copy raises). *)
  Fixpoint copy_loop (w : World N) (b : Bunch) (ls : list nat) : option (World N * Bunch) :=
    match ls with
    | [] => Some (w, b)
    | l :: r =>
        match w_hits w l with
        | None => None
        | Some _ =>
            match deepcopy w l with
            | (w', l', true) => copy_loop w' (append b l') r
            | (_, _, false) => None
            end
        end
    end.
  (** 166-181: new_from_hits. *)
  Definition new_from_hits (w : World N) (ls : list nat) : option (World N * Bunch) :=
    copy_loop w bunch_new ls.

  (** 89-92: the hits of __repr__ are written as Hit.new_from_dict(...) (_hit.py 100-102); evaluating
      the text makes a hit of each dictionary.  Numbers are written with all their digits; those
      that are not (infinity and nan) are not modelled. *)
  Fixpoint make_hits (w : World N) (ds : list (list (string * PyVal N))) : option (World N * list nat) :=
    match ds with
    | [] => Some (w, [])
    | d :: r =>
        match new_from_dict w d with
        | (w', l, true) =>
            match make_hits w' r with Some (w'', ls) => Some (w'', l :: ls) | None => None end
        | (_, _, false) => None
        end
    end.
  (** 103-114: deepcopy, the hits; 106-107 copy the covariances and the means set. *)
  Definition bunch_deepcopy (w : World N) (b : Bunch) : option (World N * Bunch) :=
    match make_hits w (map (dict_from_hit w) (b_hits b)) with
    | Some (w', ls) => new_from_hits w' ls
    | None => None
    end.
End Copy.

Open Scope R_scope.

(** A bunch with what set_covariance_matrix has stored (77-78). *)
Record Full := mkFull { fb_bunch : Bunch; fb_covs : option (list (list R)); fb_means : list (string * R) }.

(** 139: the default tolerance. *)
Definition float_tolerance : R := 1 / 1000000000.

(** key in d, d[key]. *)
Fixpoint lookup (d : list (string * R)) (k : string) : option R :=
  match d with
  | [] => None
  | (k', x) :: r => if String.eqb k k' then Some x else lookup r k
  end.

(** 143-145: the means. *)
Definition means_equal (tol : R) (a b : list (string * R)) : bool :=
  forallb (fun kv => match lookup b (fst kv) with
                     | None => false
                     | Some y => if Rlt_dec tol (Rabs (snd kv - y)) then false else true
                     end) a.

(** 146-152: the covariances; [Some r]: the comparison returns r there, [None]: it goes on.
    Comparing two matrices of one shape gives a matrix; [all] takes the truth value of its rows,
    which is ValueError if they have several elements, and so is that of the matrix of
    differences at 150.  Matrices of different shapes are taken as different.
    [elementwise]: numpy 1.13 and later compare a matrix with None by elements too. *)
Definition wide (m : list (list R)) : bool := existsb (fun r => Nat.leb 2 (List.length r)) m.
Definition row_eqb (a b : list R) : bool :=
  forallb (fun xy => if Req_EM_T (fst xy) (snd xy) then true else false) (combine a b).
Definition covs_verdict (elementwise : bool) (a b : option (list (list R))) : option bool :=
  match a, b with
  | None, None => None
  | Some m, Some m' =>
      if negb (Nat.eqb (List.length m) (List.length m')
               && forallb (fun rr => Nat.eqb (List.length (fst rr)) (List.length (snd rr))) (combine m m')) then Some false
      else if wide m then Some true
      else if forallb (fun rr => row_eqb (fst rr) (snd rr)) (combine m m') then None else Some false
  | Some m, None | None, Some m => if (elementwise && wide m)%bool then Some true else Some false
  end.

(** 153-154: the hits; both bunches live in one process. *)
Fixpoint hits_equal (tol : R) (w : RWorld) (a b : list nat) : bool :=
  match a, b with
  | x :: a', y :: b' =>
      match w_hits w x, w_hits w y with
      | Some h, Some k => if hit_ne (cur_ctx w) tol h k then false else hits_equal tol w a' b'
      | _, _ => false
      end
  | _, _ => true
  end.

(** 139-155: __eq__ of two bunches. *)
Definition bunch_eq (elementwise : bool) (tol : R) (w : RWorld) (a b : Full) : bool :=
  if negb (Nat.eqb (List.length (b_hits (fb_bunch a))) (List.length (b_hits (fb_bunch b)))) then false
  else if negb (means_equal tol (fb_means a) (fb_means b)) then false
  else match covs_verdict elementwise (fb_covs a) (fb_covs b) with
       | Some r => r
       | None => hits_equal tol w (b_hits (fb_bunch a)) (b_hits (fb_bunch b))
       end.

(** 602-611: hit_equality; the tolerance given is not used. *)
Definition hit_equality (w : RWorld) (a b : Bunch) (tol : R) : bool :=
  if negb (Nat.eqb (List.length (b_hits a)) (List.length (b_hits b))) then false
  else hits_equal float_tolerance w (b_hits a) (b_hits b).
