(** Model of writing a hit as a line of a builtin text format and reading it back, in double precision:
    Hit.write_builtin_formatted and __write_formatted (xboa/hit/_hit.py 392-411, 717-722), LineFactoryBase._read_formatted
    (xboa/hit/factory/_line_factory_base.py 43-69), BuiltinHitFactory.make_hit (_builtin_hit_factory.py 33-63).

    The tables are those of TableModel.  Simplified: a line is a list of numbers, since float(str(x)) is x; the
    particle number is translated for the written line and not in the hit (C27 shows that it is translated back);
    printed warnings are left out; the formats have no unit but those of [unit64]. *)
From Coq Require Import ZArith List Bool String.
From Flocq Require Import BinarySingleNaN.
From Verif Require Import Num WeightModel HitcoreModel TableModel IOModel FloatModel Bin64Model Shell64Model.
Import ListNotations.
Open Scope string_scope.

Inductive FTok := FTInt (z : Z) | FTNum (x : b64).
Inductive F64Err := FKeyError | FBadLine | FMath (e : FErr).

(** xboa/common/_common.py 95-107: the units of the text formats. *)
Definition unit64 (k : string) : option b64 :=
  assoc [("", fone); ("mm", fone); ("cm", b64_of_Z 10); ("m", b64_of_Z 1000); ("ns", fone); ("s", b64_of_Z 1000000000);
         ("MeV/c", fone); ("GeV/c", b64_of_Z 1000); ("GeV", b64_of_Z 1000); ("T", fdiv fone (b64_of_Z 1000)); ("GV/m", fone)] k.

(** _common.py 94: c_light. *)
Definition c_light64 : b64 := fdiv (b64_of_Z 299792458) (b64_of_Z 1000000).

(** _hit.py 717-721: one column; 605-607: ct. *)
Definition write_col64 (us : list (string * string)) (h : FHit) (k : string) : F64Err + FTok :=
  if String.eqb k "" then inr (FTInt 0)
  else
    match assoc us k with
    | None => inl FKeyError
    | Some n =>
        match unit64 n with
        | None => inl FKeyError
        | Some c =>
            match assoc get_int_map k with
            | Some i => inr (FTInt (Btrunc (fdiv (b64_of_Z (h_int h i)) c)))
            | None =>
                match assoc get_dbl_map k with
                | Some (DStored v) => inr (FTNum (fdiv (fg h v) c))
                | _ => if String.eqb k "ct" then inr (FTNum (fdiv (fmul (fg h Vt) c_light64) c)) else inl FKeyError
                end
            end
        end
    end.

Fixpoint write_cols64 (us : list (string * string)) (h : FHit) (cols : list string) : F64Err + list FTok :=
  match cols with
  | [] => inr []
  | k :: r =>
      match write_col64 us h k with
      | inl e => inl e
      | inr t => match write_cols64 us h r with inl e => inl e | inr ts => inr (t :: ts) end
      end
  end.

(** _hit.py 402-405: the particle number in the file. *)
Definition file_pid (fmt : string) (pid : Z) : option Z :=
  if contains fmt "icool" then zassoc pdg_pid_to_icool pid
  else if contains fmt "mars" then zassoc pdg_pid_to_mars pid else Some pid.
(** _builtin_hit_factory.py 43-46. *)
Definition pid_of_file (fmt : string) (n : Z) : option Z :=
  if contains fmt "icool" then zassoc icool_pid_to_pdg n
  else if contains fmt "mars" then zassoc mars_pid_to_pdg n else Some n.

(** _hit.py 392-411. *)
Definition write64 (fmt : string) (h : FHit) : F64Err + list FTok :=
  match file_pid fmt (h_int h Ipid), assoc file_formats fmt, assoc (file_units "mm") fmt with
  | Some n, Some cols, Some us => write_cols64 us (hit_set_int (N := B64Num) h Ipid n) cols
  | _, _, _ => inl FKeyError
  end.

(** _line_factory_base.py 57-68: one column; _hit.py 622-624: ct. *)
Definition read_col64 (us : list (string * string)) (h : FHit) (k : string) (t : FTok) : F64Err + FHit :=
  if String.eqb k "" then inr h
  else
    match assoc set_int_map k, t with
    | Some i, FTInt z => inr (hit_set_int (N := B64Num) h i z)
    | Some i, FTNum x => inr (hit_set_int (N := B64Num) h i (Btrunc x))
    | None, _ =>
        match assoc us k with
        | None => inl FKeyError
        | Some n =>
            match unit64 n with
            | None => inl FKeyError
            | Some c =>
                let x := fmul (match t with FTInt z => b64_of_Z z | FTNum x => x end) c in
                match assoc set_dbl_map k with
                | Some (DStored v) => inr (fs h v x)
                | _ => if String.eqb k "ct" then inr (fs h Vt (fdiv x c_light64)) else inl FKeyError
                end
            end
        end
    end.

Fixpoint read_cols64 (us : list (string * string)) (h : FHit) (cols : list string) (ts : list FTok) : F64Err + FHit :=
  match cols, ts with
  | [], [] => inr h
  | k :: r, t :: ts' =>
      match read_col64 us h k t with
      | inl e => inl e
      | inr h' => read_cols64 us h' r ts'
      end
  | _, _ => inl FBadLine
  end.

Section Pow.
  Variable L : PowLib.

  (** _builtin_hit_factory.py 47-63: mass, energy and charge of the particle. *)
  Definition complete64 (ms : string) (h : FHit) : F64Err + FHit :=
    let m := match pid_mass mass_table (Z.abs (h_int h Ipid)) with Some m => m | None => fzero end in
    match mass_shell64 L (fs h Vmass m) ms with
    | (_, ShErr e) => inl (FMath e)
    | (h1, _) =>
        match zassoc pdg_pid_to_charge (h_int h1 Ipid) with
        | Some q => inr (fs h1 Vcharge (b64_of_Z q))
        | None => inr h1
        end
    end.

  (** _builtin_hit_factory.py 33-63. *)
  Definition read64 (fmt : string) (ts : list FTok) : F64Err + FHit :=
    match assoc file_formats fmt, assoc (file_units "mm") fmt, assoc file_mass_shell fmt with
    | Some cols, Some us, Some ms =>
        match read_cols64 us (hit_new (N := B64Num)) cols ts with
        | inl e => inl e
        | inr h =>
            match pid_of_file fmt (h_int h Ipid) with
            | Some pid => complete64 ms (hit_set_int (N := B64Num) h Ipid pid)
            | None => inl FKeyError
            end
        end
    | _, _, _ => inl FKeyError
    end.
End Pow.
