(** The arithmetic on mass arrays in binary64, as the packages and streams of
    auxi/modelling/process/materials do it.  An array is the list of its floats;
    the total of an array is a separate argument, because Python's sum and
    numpy's sum add in different orders. *)
From Verif Require Import Prelude M_Ieee.
From Flocq Require Import Core BinarySingleNaN.
Import ListNotations.

(** [x > y] for floats (false when one is nan). *)
Definition gt64 (x y : float64) : bool := match Bcompare x y with Some Gt => true | _ => false end.
(** [x == 0.0]. *)
Definition is_zero64 (x : float64) : bool := match x with B754_zero _ => true | _ => false end.

(** psd.py:281-283 and 506-508, slurry.py:384-389: array + array of the same material. *)
Fixpoint mix64 (a b : list float64) : list float64 :=
  match a, b with x :: a', y :: b' => add64 x y :: mix64 a' b' | _, _ => [] end.

(** psd.py:457-466, slurry.py:638-651 (there the water is one more entry),
    thermo.py:1021-1034 and 1768-1782: extraction of the mass [x] from an array
    with the total [total]; the extracted array and what is left. *)
Definition extract64 (total x : float64) (ms : list float64) : res (list float64 * list float64) :=
  if gt64 x total then Err PyException else
  let f := div64 x total in
  Ok (map (fun m => mul64 m f) ms, map (fun m => mul64 m (sub64 one64 f)) ms).
(** chem.py:501-512: the same with Python's division. *)
Definition chem_extract64 (total x : float64) (ms : list float64) : res (list float64 * list float64) :=
  if gt64 x total then Err PyException else
  if is_zero64 total then Err ZeroDivisionError else
  let f := div64 x total in
  Ok (map (fun m => mul64 m f) ms, map (fun m => mul64 m (sub64 one64 f)) ms).

(** psd.py:471-479, chem.py:518-525, slurry.py:655-660, thermo.py:1057-1060:
    extraction of [x] of one entry [m]; what is left of it. *)
Definition take64 (x m : float64) : res float64 := if gt64 x m then Err PyException else Ok (sub64 m x).

(** psd.py:214-218, chem.py:228-233, thermo.py:339-346 and 366-373: mass * assay / assay_total
    ([total] is 1.0 when not normalised). *)
Definition create64 (total mass : float64) (a : list float64) : list float64 := map (fun x => div64 (mul64 mass x) total) a.
(** psd.py:394, chem.py:390-391, slurry.py:538, thermo.py:873: masses / total. *)
Definition assay64 (total : float64) (ms : list float64) : list float64 := map (fun m => div64 m total) ms.
