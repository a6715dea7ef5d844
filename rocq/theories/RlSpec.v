(** Vocabulary for the statements about satellites and the Richardson-Lucy deconvolution *)
From Verif Require Import Base Arrays CorrModel CorrSpec Graph DeconvModel RlModel.
From Coq Require Import Relations.
Local Open Scope Q_scope.

(** the pixel at an index has a value *)
Definition pixel (shape : list nat) (im : list Q) (i : list Z) (v : Q) : Prop := exists n, nth_error (indices shape) n = Some i /\ nth_error im n = Some v.
(** indices that differ by at most one along each axis, and along at most two axes *)
Definition touch (u v : list Z) : Prop := Forall2 (fun a b => Z.abs (a - b) <= 1)%Z u v /\ (length (filter (fun p => negb (Z.eqb (fst p) (snd p))) (combine u v)) <= 2)%nat.
Section Satellites.
  Variables (shape : list nat) (im : list Q) (e_cut : Q) (ct : cut_type).
  (** the pixel is not below the cut: its value, or its value as fraction of the greatest one *)
  Definition lit (i : list Z) : Prop := exists v, pixel shape im i v /\
    match ct with CutAbs => e_cut <= v | CutRel => exists m, is_greatest im m /\ ~ m == 0 /\ e_cut <= v / m end.
  (** connected by a chain of touching pixels that are not below the cut *)
  Definition connected : list Z -> list Z -> Prop := clos_refl_trans (list Z) (fun u v => lit u /\ lit v /\ touch u v).
  (** part of a deposit of less than [max_size] pixels that is not the only one *)
  Definition satellite (max_size : Z) (i : list Z) : Prop :=
    lit i
    /\ (exists deposit, NoDup deposit /\ (forall j, In j deposit <-> lit j /\ connected i j) /\ (Z.of_nat (length deposit) < max_size)%Z)
    /\ exists j, lit j /\ ~ connected i j.
End Satellites.
