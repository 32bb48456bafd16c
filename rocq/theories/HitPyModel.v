(** Model of the numerical methods of the Python class Hit, over the reals.
    Source: xboa/hit/_hit.py and, for period_transformation, xboa/bunch/_bunch.py.

    Simplifications common to the file: floats are real numbers; [self.get('px')] and
    [self['px'] = v] on a name that the core stores are rendered as direct access to
    the stored member, which is what Hitcore.get / Hitcore.set do for that name
    (HitcoreModel). *)
From Coq Require Import Reals ZArith List Bool String.
From Verif Require Import Num WeightModel HitcoreModel.
Import ListNotations.
Open Scope string_scope.
Open Scope R_scope.

Notation RHit := (Hit RNum).
Notation RCtx := (Context RNum).
Notation RVal := (PyVal RNum).

(** Python exceptions that the methods of Hit raise. *)
Inductive PyErr := EIndexError | EZeroDivision | EFloatingPoint | ETypeError | EValueError.

(** A Python hit together with the weight context it uses. *)
Definition PSt : Type := RHit * RCtx.

Definition gd (h : RHit) (v : DblVar) : R := h_dbl h v.
Definition sd (h : RHit) (v : DblVar) (x : R) : RHit := hit_set_dbl h v x.

(** common/_common.py 94. *)
Definition c_light : R := 299792458 / 1000000.

(** math.atan2 (C library definition, without signed zeros). *)
Definition atan2 (y x : R) : R :=
  if Rlt_dec 0 x then atan (y / x)
  else if Rlt_dec x 0 then
    (if Rle_dec 0 y then atan (y / x) + PI else atan (y / x) - PI)
  else if Rlt_dec 0 y then PI / 2
  else if Rlt_dec y 0 then - (PI / 2)
  else 0.

(** _hit.py 561-563: get_p. *)
Definition get_p (h : RHit) : R :=
  sqrt (gd h Vpx * gd h Vpx + gd h Vpy * gd h Vpy + gd h Vpz * gd h Vpz).

(** _hit.py 573-575: get_pt. *)
Definition get_pt (h : RHit) : R := sqrt (gd h Vpx * gd h Vpx + gd h Vpy * gd h Vpy).

(** Python float division. *)
Definition py_div (a b : R) : PyErr + R :=
  if Req_EM_T b 0 then inl EZeroDivision else inr (a / b).

(** _hit.py 561-623, 800-801, 817-819: table __get_variables ('weight' is found in the
    core first and '' is treated in [py_get]).  The outer option is "name not in the
    table". *)
Definition derived_get (h : RHit) (k : string) : option (PyErr + R) :=
  if String.eqb k "p" then Some (inr (get_p h))
  else if String.eqb k "r" then
    Some (inr (sqrt (gd h Vx * gd h Vx + gd h Vy * gd h Vy)))
  else if String.eqb k "phi" then Some (inr (atan2 (gd h Vy) (gd h Vx)))
  else if String.eqb k "pt" then Some (inr (get_pt h))
  else if String.eqb k "pphi" then Some (inr (atan2 (gd h Vpy) (gd h Vpx)))
  else if String.eqb k "x'" then Some (py_div (gd h Vpx) (gd h Vpz))
  else if String.eqb k "y'" then Some (py_div (gd h Vpy) (gd h Vpz))
  else if String.eqb k "t'" then Some (py_div (- gd h Venergy) (gd h Vpz))
  else if String.eqb k "ct'" then Some (py_div (- gd h Venergy) (gd h Vpz))
  else if String.eqb k "r'" then Some (py_div (get_pt h) (gd h Vpz))
  else if String.eqb k "spin" then
    Some (inr (sqrt (gd h Vsx * gd h Vsx + gd h Vsy * gd h Vsy + gd h Vsz * gd h Vsz)))
  else if String.eqb k "ct" then Some (inr (gd h Vt * c_light))
  else if String.eqb k "r_squared" then
    Some (inr (gd h Vx * gd h Vx + gd h Vy * gd h Vy))
  else if String.eqb k "z'" then Some (inr 1)
  else if String.eqb k "kinetic_energy" then Some (inr (gd h Venergy - gd h Vmass))
  else if String.eqb k "l_kin" then
    Some (inr (gd h Vx * gd h Vpy - gd h Vy * gd h Vpx))
  else None.

(** _hit.py 336-349: Hit.get. *)
Definition py_get (s : PSt) (k : string) : PyErr + RVal :=
  match core_get (snd s) (fst s) k with
  | Some v => inr v
  | None =>
      match derived_get (fst s) k with
      | Some (inr x) => inr (PFloat (x : RNum))
      | Some (inl e) => inl e
      | None => if String.eqb k "" then inr POther else inl EIndexError
      end
  end.

(** _hit.py 630-638: set_p.  [None] is a complex number, the value that ** gives for
    the square root of a negative number: storing it leaves -1 in px and raises
    IndexError from Hit.set. *)
Definition set_p (h : RHit) (v : option R) : RHit * option PyErr :=
  let h1 := if Req_EM_T (get_p h) 0 then sd h Vpz 1 else h in
  match v with
  | Some x =>
      let scale := x / get_p h1 in
      let h2 := sd h1 Vpx (gd h1 Vpx * scale) in
      let h3 := sd h2 Vpy (gd h2 Vpy * scale) in
      (sd h3 Vpz (gd h3 Vpz * scale), None)
  | None => (sd h1 Vpx (-1), Some EIndexError)
  end.

Definition tol9 : R := 1 / 1000000000.

(** _hit.py 640-643: set_xP. *)
Definition set_xP (h : RHit) (x : R) : RHit * option PyErr :=
  if Rlt_dec (Rabs (gd h Vpz)) tol9 then (h, Some EFloatingPoint)
  else (sd h Vpx (x * gd h Vpz), None).

(** _hit.py 645-648: set_yP. *)
Definition set_yP (h : RHit) (x : R) : RHit * option PyErr :=
  if Rlt_dec (Rabs (gd h Vpz)) tol9 then (h, Some EFloatingPoint)
  else (sd h Vpy (x * gd h Vpz), None).

(** _hit.py 650-657: set_tP. *)
Definition set_tP (h : RHit) (x : R) : RHit * option PyErr :=
  if Rlt_dec (Rabs (gd h Vpz)) tol9 then (h, Some EFloatingPoint)
  else
    let h1 := sd h Venergy (- x * gd h Vpz) in
    let h2 := if Rlt_dec (gd h1 Vpz) 0 then
                let h' := sd h1 Venergy (gd h1 Venergy * -1) in
                sd h' Vpz (gd h' Vpz * -1)
              else h1 in
    if Rlt_dec (gd h2 Venergy) (gd h2 Vmass) then (h2, Some EFloatingPoint)
    else (h2, None).

(** _hit.py 624-628: set_ct; 613-616: set_ek. *)
Definition set_ct (h : RHit) (x : R) : RHit * option PyErr := (sd h Vt (x / c_light), None).
Definition set_ek (h : RHit) (x : R) : RHit * option PyErr :=
  (sd h Venergy (x + gd h Vmass), None).

(** The real value of a Python number; [None] for anything else. *)
Definition as_real (v : RVal) : option R :=
  match v with PFloat x => Some x | PInt z => Some (IZR z) | POther => None end.

(** _hit.py 820: table __set_variables.  Anything that is not a real number is treated
    as complex for 'p' and as the cause of a TypeError for the others. *)
Definition derived_set (h : RHit) (k : string) (v : RVal) : option (RHit * option PyErr) :=
  let with_real f := match as_real v with
                     | Some x => Some (f h x)
                     | None => Some (h, Some ETypeError)
                     end in
  if String.eqb k "p" then Some (set_p h (as_real v))
  else if String.eqb k "x'" then with_real set_xP
  else if String.eqb k "y'" then with_real set_yP
  else if String.eqb k "t'" then with_real set_tP
  else if String.eqb k "ct" then with_real set_ct
  else if String.eqb k "kinetic_energy" then with_real set_ek
  else if String.eqb k "" then Some (h, None)
  else None.

(** _hit.py 351-365: Hit.set.  [None] means normal return. *)
Definition py_set (s : PSt) (k : string) (v : RVal) : PSt * option PyErr :=
  let '(h', c', ok) := core_set (snd s) (fst s) k v in
  if ok then ((h', c'), None)
  else
    match derived_set h' k v with
    | Some (h'', e) => ((h'', c'), e)
    | None => ((h', c'), Some EIndexError)
    end.

(** ---- mass shell -------------------------------------------------------------- *)

(** Result of mass_shell_condition: None, True, False or an exception. *)
Inductive MsRes := MsNone | MsTrue | MsFalse | MsErr (e : PyErr).

Definition ms_tol : R := 1 / 1000000.

(** [abs(val)**1.5/val] of _hit.py 312, 319, 326. *)
Definition pow15_over (val : R) : R := Rabs val * sqrt (Rabs val) / val.

(** [x**0.5]: complex ([None]) for negative x. *)
Definition py_sqrt (x : R) : option R := if Rlt_dec x 0 then None else Some (sqrt x).

(** _hit.py 290-332: mass_shell_condition with the default tolerance. *)
Definition mass_shell (h : RHit) (k : string) : RHit * MsRes :=
  let px := gd h Vpx in let py := gd h Vpy in let pz := gd h Vpz in
  let e := gd h Venergy in let m := gd h Vmass in
  let component v val :=
    if Rlt_dec ms_tol val then (sd h v (pow15_over val), MsTrue)
    else (sd h v 0, MsFalse) in
  if String.eqb k "" then (h, MsNone)
  else if String.eqb k "p" then
    let (h', err) := set_p h (py_sqrt ((e - m) * (e + m))) in
    (h', match err with Some er => MsErr er | None => MsTrue end)
  else if String.eqb k "px" then component Vpx (e * e - m * m - py * py - pz * pz)
  else if String.eqb k "py" then component Vpy (e * e - m * m - px * px - pz * pz)
  else if String.eqb k "pz" then component Vpz (e * e - m * m - px * px - py * py)
  else if String.eqb k "energy" then
    (sd h Venergy (sqrt (m * m + px * px + py * py + pz * pz)), MsTrue)
  else (h, MsErr EIndexError).

(** ---- translate ---------------------------------------------------------------- *)

(** Python addition of numbers. *)
Definition py_add (a b : RVal) : PyErr + RVal :=
  match a, b with
  | PInt x, PInt y => inr (PInt (x + y)%Z)
  | POther, _ | _, POther => inl ETypeError
  | _, _ =>
      match as_real a, as_real b with
      | Some x, Some y => inr (PFloat ((x + y)%R : RNum))
      | _, _ => inl ETypeError
      end
  end.

(** _hit.py 258-259: the loop over translation_dict, in iteration order. *)
Fixpoint translate_loop (s : PSt) (d : list (string * RVal)) : PSt * option PyErr :=
  match d with
  | [] => (s, None)
  | (k, v) :: r =>
      match py_get s k with
      | inl e => (s, Some e)
      | inr x =>
          match py_add v x with
          | inl e => (s, Some e)
          | inr y =>
              match py_set s k y with
              | (s', None) => translate_loop s' r
              | (s', Some e) => (s', Some e)
              end
          end
      end
  end.

Definition ms_err (r : MsRes) : option PyErr :=
  match r with MsErr e => Some e | _ => None end.

(** _hit.py 251-260: translate. *)
Definition translate (s : PSt) (d : list (string * RVal)) (ms : string)
  : PSt * option PyErr :=
  match translate_loop s d with
  | (s', Some e) => (s', Some e)
  | (s', None) => let (h', r) := mass_shell (fst s') ms in ((h', snd s'), ms_err r)
  end.

(** ---- abelian_transformation ---------------------------------------------------- *)

(** dict.get(k, 0) on a dict of floats, as _hit.py 277-279 completes the dicts. *)
Definition dget (d : list (string * R)) (k : string) : R :=
  match assoc d k with Some x => x | None => 0 end.

(** _hit.py 234-249: get_vector without origin: the list of numbers read. *)
Fixpoint get_vector (s : PSt) (ks : list string) : PyErr + list R :=
  match ks with
  | [] => inr []
  | k :: r =>
      match py_get s k with
      | inl e => inl e
      | inr v =>
          match as_real v with
          | None => inl ETypeError
          | Some x => match get_vector s r with inl e => inl e | inr xs => inr (x :: xs) end
          end
      end
  end.

(** Scalar product of a matrix row with a vector. *)
Fixpoint dot (a b : list R) : R :=
  match a, b with x :: a', y :: b' => x * y + dot a' b' | _, _ => 0 end.

(** numpy matrix times column vector: shapes must agree. *)
Definition mat_vec (m : list (list R)) (v : list R) : PyErr + list R :=
  if forallb (fun row => Nat.eqb (List.length row) (List.length v)) m
  then inr (map (fun row => dot row v) m) else inl EValueError.

(** _hit.py 283-286: the loop that stores the result; vector[i,0] out of range is an
    IndexError. *)
Fixpoint abelian_store (s : PSt) (ks : list string) (v : list R)
         (trans origin : list (string * R)) : PSt * option PyErr :=
  match ks with
  | [] => (s, None)
  | k :: r =>
      match v with
      | [] => (s, Some EIndexError)
      | x :: v' =>
          match py_set s k (PFloat ((x + dget trans k + dget origin k)%R : RNum)) with
          | (s', None) => abelian_store s' r v' trans origin
          | (s', Some e) => (s', Some e)
          end
      end
  end.

(** _hit.py 262-288: abelian_transformation. *)
Definition abelian (s : PSt) (ks : list string) (m : list (list R))
           (trans origin : list (string * R)) (ms : string) : PSt * option PyErr :=
  match get_vector s ks with
  | inl e => (s, Some e)
  | inr v =>
      let v1 := map (fun kx => snd kx - dget origin (fst kx)) (combine ks v) in
      match mat_vec m v1 with
      | inl e => (s, Some e)
      | inr v2 =>
          match abelian_store s ks v2 trans origin with
          | (s', Some e) => (s', Some e)
          | (s', None) => let (h', r) := mass_shell (fst s') ms in ((h', snd s'), ms_err r)
          end
      end
  end.

(** ---- period_transformation -------------------------------------------------------- *)

(** math.floor. *)
Definition Rfloor (x : R) : Z := (up x - 1)%Z.

(** [hit[k] -= x] (uses Hit.get and Hit.set). *)
Definition sub_from (s : PSt) (k : string) (x : R) : PSt * option PyErr :=
  match py_get s k with
  | inl e => (s, Some e)
  | inr v =>
      match as_real v with
      | None => (s, Some ETypeError)
      | Some y => py_set s k (PFloat ((y - x)%R : RNum))
      end
  end.

(** bunch/_bunch.py 574-578: the body of the loop of period_transformation. *)
Definition period_hit (s : PSt) (offset freq : R) (k : string) : PSt * option PyErr :=
  match sub_from s k offset with
  | (s1, Some e) => (s1, Some e)
  | (s1, None) =>
      match py_get s1 k with
      | inl e => (s1, Some e)
      | inr v =>
          match as_real v with
          | None => (s1, Some ETypeError)
          | Some y =>
              match py_div (IZR (Rfloor (y * freq + 1 / 2))) freq with
              | inl e => (s1, Some e)
              | inr shift => sub_from s1 k shift
              end
          end
      end
  end.

(** ---- comparison ------------------------------------------------------------------ *)

(** abs(self.get(key) - target.get(key)) > tolerance, _hit.py 118; both hits read the
    current context. *)
Definition differs (c : RCtx) (tol : R) (a b : RHit) (k : string) : bool :=
  match core_get c a k, core_get c b k with
  | Some u, Some v =>
      match as_real u, as_real v with
      | Some x, Some y => if Rlt_dec tol (Rabs (x - y)) then true else false
      | _, _ => true
      end
  | _, _ => true
  end.

(** _hit.py 114-119: __eq__ for two hits. *)
Definition hit_eq (c : RCtx) (tol : R) (a b : RHit) : bool :=
  forallb (fun k => negb (differs c tol a b k)) get_names.

(** _hit.py 121-123: __ne__. *)
Definition hit_ne (c : RCtx) (tol : R) (a b : RHit) : bool := negb (hit_eq c tol a b).
