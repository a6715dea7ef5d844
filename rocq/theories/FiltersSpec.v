(** Vocabulary for C36 and C37 *)
From Verif Require Import Base PeaksModel FiltersModel.
Local Open Scope nat_scope.

(** a closed range *)
Definition between (r : Q * Q) (x : Q) : Prop := (fst r <= x /\ x <= snd r)%Q.

(** the S1s and S2s a user asks for *)
Definition good_s1 (c : limits) (p : peak) : Prop :=
  between (s1_e c) (energy_above_threshold p (s1_thr c)) /\ between (s1_w c) (width_above_threshold p (s1_thr c)) /\ between (s1_h c) (height p).
Definition good_s2 (c : limits) (p : peak) : Prop :=
  between (s2_e c) (energy_above_threshold p (s2_thr c)) /\ between (s2_w c) (width_above_threshold p (s2_thr c)) /\ between (s2_h c) (height p) /\
  between (s2_nsipm c) (qn (length (r_ids (p_sipms p)))).

(** [n] of the elements of [l] satisfy [P] *)
Inductive how_many {A} (P : A -> Prop) : list A -> nat -> Prop :=
| hm_nil : how_many P [] 0
| hm_yes a l n : P a -> how_many P l n -> how_many P (a :: l) (S n)
| hm_no a l n : ~ P a -> how_many P l n -> how_many P (a :: l) n.

Definition ordered (r : Q * Q) : Prop := (fst r <= snd r)%Q.
Definition limits_ok (c : limits) : Prop :=
  ordered (s1_n c) /\ ordered (s1_e c) /\ ordered (s1_w c) /\ ordered (s1_h c) /\
  ordered (s2_n c) /\ ordered (s2_e c) /\ ordered (s2_w c) /\ ordered (s2_h c) /\ ordered (s2_nsipm c).

(** the peaks that count for the trigger; the limits on charge and height are those of the data, scaled to the simulation *)
Definition within_limits (r : Q * Q) (x : Q) : Prop := (fst r < x /\ x <= snd r)%Q.
Definition scaled (r : Q * Q) (f : Q) : Q * Q := (fst r * f, snd r * f)%Q.
Definition triggers (c : trigger_conf) (p : peak) : Prop :=
  within_limits (tc_width c) (width_above_threshold p 0) /\
  within_limits (scaled (tc_charge c) (tc_ratio c)) (energy_above_threshold p 0) /\
  within_limits (scaled (tc_height c) (tc_ratio c)) (height p).
