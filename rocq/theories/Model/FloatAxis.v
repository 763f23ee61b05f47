(** The check for an even spacing in sensitivity_kernel (monitor/spatial.py 144-145) in binary64, for the axes of DVGrid
    (310-311).  np.arange(0, stop, step) holds k*step for k = 0, 1, ...; numbers and operations of the standard library's
    specification of binary64. *)
From Coq Require Import SpecFloat.
From Verif Require Import Lib.Base.
Local Open Scope Z_scope.

Definition f64 := spec_float.
Definition of_Z (z : Z) : f64 := binary_normalize 53 1024 z 0 false.
Definition fmul : f64 -> f64 -> f64 := SFmul 53 1024.
Definition fsub : f64 -> f64 -> f64 := SFsub 53 1024.
Definition faxis (n : nat) (res : f64) : list f64 := map (fun k => fmul (of_Z (Z.of_nat k)) res) (seq 0 n).
Fixpoint fdiffs (x : list f64) : list f64 := match x with a :: r => match r with b :: _ => fsub b a :: fdiffs r | [] => [] end | [] => [] end.
Definition funeven (x : list f64) : result bool :=
  match x with a :: b :: _ => Ok (existsb (fun d => negb (SFeqb d (fsub b a))) (fdiffs x)) | _ => Raise IndexError end.
(** the numbers nearest to one tenth and to one half *)
Definition tenth : f64 := SFdiv 53 1024 (of_Z 1) (of_Z 10).
Definition half : f64 := SFdiv 53 1024 (of_Z 1) (of_Z 2).
