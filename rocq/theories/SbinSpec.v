(** Specification of the sampling periods of simulated sensors *)
From Verif Require Import Base SbinModel.
From Coq Require Import String Ascii.
Local Open Scope string_scope.

Definition within (p s : string) : Prop := exists a b, s = a ++ p ++ b.
(** a word: not empty and without blanks *)
Definition word (s : string) : Prop := s <> "" /\ forall c, In c (list_ascii_of_string s) -> blank c = false.
(** the name of a sensor: its first and its last letters are none of those of _binning *)
Definition plain (name : string) : Prop :=
  exists a l b l', list_ascii_of_string name = (a :: l)%list /\ list_ascii_of_string name = (l' ++ [b])%list /\
    ~ In a (list_ascii_of_string "_binning") /\ ~ In b (list_ascii_of_string "_binning").

Section Units.
  Variable float : string -> option Q.
  Variable unit : string -> option Q.
  (** a value such as "100 nanosecond" *)
  Definition means (v : string) (w : Q) : Prop := exists x u q k, v = x ++ " " ++ u /\ word x /\ word u /\ float x = Some q /\ unit u = Some k /\ w = (q * k)%Q.
  (** the first row with the key <name>_binning *)
  Definition declared (cfg : list conf_row) (name : string) (w : Q) : Prop :=
    exists l1 v l2, cfg = (l1 ++ ((name ++ "_binning")%string, v) :: l2)%list /\ ~ In (name ++ "_binning") (List.map fst l1) /\ means v w.
  (** the rows about binning are those of sensors, with values that can be read *)
  Definition readable (cfg : list conf_row) : Prop :=
    forall key v, In (key, v) cfg -> within "binning" key -> exists name w, key = name ++ "_binning" /\ plain name /\ means v w.
  (** the first sensor of a type *)
  Definition first_of_type (p : string) (cfg : list conf_row) (w : Q) : Prop :=
    exists l1 name v l2, cfg = (l1 ++ ((name ++ "_binning")%string, v) :: l2)%list /\ within p name /\ ~ within "Geom" name /\ means v w /\
      forall name', In (name' ++ "_binning") (List.map fst l1) -> within "Geom" name' \/ ~ within p name'.
  (** files before 2020: the keys of the photomultipliers and of the SiPMs, and the first row with such a key *)
  Definition key_of (p key : string) : Prop := exists a b c, key = a ++ p ++ b ++ "_binning" ++ c.
  Definition first_key (P : string -> Prop) (cfg : list conf_row) (w : Q) : Prop :=
    exists l1 key v l2, cfg = (l1 ++ (key, v) :: l2)%list /\ P key /\ means v w /\ forall key', In key' (List.map fst l1) -> ~ P key'.
End Units.
