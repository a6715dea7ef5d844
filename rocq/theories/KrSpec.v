(** Vocabulary for C52 *)
From Verif Require Import Base PeaksModel PmapioModel FiltersModel KrModel.
Local Open Scope nat_scope.

(** [out] is what remains of [l] when the elements that are not marked are left out *)
Inductive marked {A} : list bool -> list A -> list A -> Prop :=
| mk_nil : marked [] [] []
| mk_yes a f l out : marked f l out -> marked (true :: f) (a :: l) (a :: out)
| mk_no a f l out : marked f l out -> marked (false :: f) (a :: l) out.

Section Spec.
  Variable drift_v : Q.
  Variable charges : peak -> list Q.
  Variable rms : peak -> Q.
  (** the first cluster found for a peak; None when the reconstruction fails *)
  Variable cluster_of : peak -> option krcluster.

  (** the part of a row that comes from the S1 number [i] *)
  Definition s1_part (i : nat) (p : peak) (w : krrow) : Prop :=
    w_s1_peak w = Nat.min i u16max /\ w_S1w w = Some (peak_width p) /\ w_S1h w = Some (height p) /\ w_S1e w = Some (total_energy p) /\ w_S1t w = Some (time_at_max_energy p).
  Definition no_s1_part (w : krrow) : Prop := w_s1_peak w = u16max /\ w_S1w w = None /\ w_S1h w = None /\ w_S1e w = None /\ w_S1t w = None.
  (** the part that comes from the S2 number [j] *)
  Definition s2_part (j : nat) (p : peak) (w : krrow) : Prop :=
    w_s2_peak w = Nat.min j u16max /\ w_S2w w = Some (peak_width p / mus)%Q /\ w_S2h w = Some (height p) /\ w_S2e w = Some (total_energy p) /\
    w_S2t w = Some (time_at_max_energy p) /\ w_qmax w = Some (maximum (charges p)) /\
    let c := match cluster_of p with Some c => c | None => NNN end in
    w_Nsipm w = k_nsipm c /\ w_S2q w = k_Q c /\ w_X w = k_X c /\ w_Y w = k_Y c /\ w_R w = k_R c /\ w_Phi w = k_Phi c /\ w_Xrms w = k_Xrms c /\ w_Yrms w = k_Yrms c /\
    w_Zrms w = match cluster_of p with Some _ => Some (rms p / mus)%Q | None => NN end.
  (** the part that depends on both: the drift time between them, and the position along the drift *)
  Definition drift_part (p1 p2 : peak) (w : krrow) : Prop :=
    match cluster_of p2 with
    | Some _ => w_DT w = Some ((time_at_max_energy p2 - time_at_max_energy p1) * (1 / mus))%Q /\ w_Z w = Some ((time_at_max_energy p2 - time_at_max_energy p1) * drift_v)%Q
    | None => w_DT w = NN /\ w_Z w = NN
    end.

  (** the row of the S1 number [i] (if any) and the S2 number [j] *)
  Definition row_of (ev : Z) (t : Q) (l1 l2 : list peak) (o : option nat) (j : nat) (w : krrow) : Prop :=
    w_event w = ev /\ w_time w = t /\ w_nS1 w = length l1 /\ w_nS2 w = length l2 /\
    (exists p2, nth_error l2 j = Some p2 /\ s2_part j p2 w) /\
    match o with
    | None => no_s1_part w /\ w_DT w = None /\ w_Z w = None
    | Some i => exists p1 p2, nth_error l1 i = Some p1 /\ nth_error l2 j = Some p2 /\ s1_part i p1 w /\ drift_part p1 p2 w
    end.
  (** the pairs, in the order of the table *)
  Definition pairs (n1 n2 : nat) : list (option nat * nat) :=
    list_prod (match n1 with 0 => [None] | _ => map Some (seq 0 n1) end) (seq 0 n2).
End Spec.
