(** Vocabulary for C106 *)
From Verif Require Import Base PeaksModel PmapioModel FiltersModel FiltersSpec XyModel KrModel KrSpec PreadModel.
Local Open Scope nat_scope.

(** a PMap is accepted if the numbers of its good S1s and S2s are those asked for *)
Definition accepted (c : limits) (pm : pmap) : Prop :=
  exists n1 n2, how_many (good_s1 c) (s1s pm) n1 /\ how_many (good_s2 c) (s2s pm) n2 /\ between (s1_n c) (qn n1) /\ between (s2_n c) (qn n2).

(** [out] has the elements of [l] for which [P] holds, in order *)
Inductive only {A} (P : A -> Prop) : list A -> list A -> Prop :=
| only_nil : only P [] []
| only_yes a l out : P a -> only P l out -> only P (a :: l) (a :: out)
| only_no a l out : ~ P a -> only P l out -> only P (a :: l) out.

Section Spec.
  Variables (sipm_xys : list (Q * Q)) (charges : peak -> list Q) (sqrt : Q -> Q) (arctan2 : Q -> Q -> Q) (qthr : Q).
  (** the SiPMs of a peak, with their positions in the database and their charges *)
  Definition sensors_of (p : peak) (ss : list ((Q * Q) * Q)) : Prop :=
    Forall2 (fun i s => nth_error sipm_xys i = Some (fst s)) (r_ids (p_sipms p)) ss /\ map snd ss = charges p.
  (** the position of a peak: the average of the positions of the SiPMs with a charge of at least [qthr], weighted with their charges. There is
      none if there are no charges, or no such SiPMs. *)
  Definition position_of (p : peak) (o : option krcluster) : Prop :=
    exists ss g, sensors_of p ss /\ only (fun s => qthr <= snd s)%Q ss g /\
    let total := sumF snd g in
    let mean (f : (Q * Q) * Q -> Q) := (sumF (fun s => snd s * f s) g / total)%Q in
    match o with
    | None => (sumF snd ss == 0 \/ total == 0)%Q
    | Some k => ~ (sumF snd ss == 0)%Q /\ ~ (total == 0)%Q /\
      exists x y vx vy q, (q == total /\ x == mean (fun s => fst (fst s)) /\ y == mean (fun s => snd (fst s)) /\
        vx == mean (fun s => (fst (fst s) - x) * (fst (fst s) - x)) /\ vy == mean (fun s => (snd (fst s) - y) * (snd (fst s) - y)))%Q /\
        k = {| k_nsipm := Some (qn (length g)); k_Q := Some q; k_X := Some x; k_Y := Some y; k_Xrms := Some (sqrt vx); k_Yrms := Some (sqrt vy);
               k_R := Some (sqrt (x * x + y * y)%Q); k_Phi := Some (arctan2 y x) |}
    end.

  (** the rows of an accepted event: one for each pair of a good S1 and a good S2 (or for each good S2, if there are no good S1s) *)
  Definition event_rows (c : limits) (drift_v : Q) (rms : peak -> Q) (it : pitem) (rows : list krrow) : Prop :=
    exists l1 l2 place, only (good_s1 c) (s1s (pi_pmap it)) l1 /\ only (good_s2 c) (s2s (pi_pmap it)) l2 /\
      (forall p, In p l2 -> position_of p (place p)) /\
      Forall2 (fun '(i, j) w => row_of drift_v charges rms place (pi_event it) (pi_time it * (1 # 1000))%Q l1 l2 i j w) (pairs (length l1) (length l2)) rows.
End Spec.
