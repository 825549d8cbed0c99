(** The tuning tables of ilaenv and iparmq, written as tables of routine names.  A routine name is a
    precision letter, five letters, and possibly more ("_2stage"). *)
From Coq Require Import Ascii.
From Verif Require Import Base Num Spec SpecLapack.
Open Scope Z_scope.

Definition real_letter (p : ascii) : Prop := p = "S"%char \/ p = "D"%char.
Definition complex_letter (p : ascii) : Prop := p = "C"%char \/ p = "Z"%char.

(** a name and its three parameters: block size, smallest block size, crossover point *)
Definition tuning_table : list (string * (Z * Z * Z)) :=
  [("GEQRF", (32, 2, 128)); ("GERQF", (32, 2, 128)); ("GELQF", (32, 2, 128)); ("GEQLF", (32, 2, 128));
   ("GEHRD", (32, 2, 128)); ("GEBRD", (32, 2, 128)); ("GGHD3", (32, 2, 128));
   ("SYTRF", (64, 8, 0)); ("HETRF", (64, 2, 0)); ("SYTRD", (1, 2, 32)); ("HETRD", (1, 2, 32));
   ("TRTRI", (64, 2, 0)); ("TREVC", (64, 2, 0)); ("LAUUM", (64, 2, 0)); ("LATRS", (64, 2, 0));
   ("LAORH", (192, 2, 0))]%string.

Definition find_name {A} (s : string) (t : list (string * A)) (d : A) : A :=
  match find (fun e => (fst e =? s)%string) t with Some e => snd e | None => d end.

(** the names ORGxx, ORMxx (UNGxx, UNMxx) of the routines that apply or form an orthogonal factor *)
Definition factor_kinds : list string := ["QR"; "RQ"; "LQ"; "QL"; "HR"; "TR"; "BR"]%string.
Definition applies_factor (pre s : string) : bool := existsb (fun q => (pre ++ q =? s)%string) factor_kinds.
(** the two letters a name starts with *)
Definition family (f s : string) : bool := String.prefix f s.

(** the parameters of a name of five letters without further rules *)
Definition tuning_row (s : string) : Z * Z * Z := find_name s tuning_table (1, 2, 0).

(** IPARMQ, ispec 16, as the crate has it: how far reflections are accumulated *)
Definition accumulation_mode (s : string) (nh : Z) : Z :=
  if ("GGHRD" =? s)%string || ("GGHD3" =? s)%string then (if 14 <=? nh then 2 else 1)
  else if (substring 2 3 s =? "EXC")%string then (if 14 <=? nh then 1 else 0)
  else 0.
