(** Independent vocabulary for the properties of peaks *)
From Verif Require Import Base PeaksModel.
Local Open Scope nat_scope.

(** [gs] is the maximal-gap partition of [l]: the pieces concatenate to [l], none is
    empty, neighbours inside a piece are at most [stride] apart and the neighbours
    across a cut are more than [stride] apart. *)
Definition gap (a b : nat) : Z := (Z.of_nat b - Z.of_nat a)%Z.
Record gap_partition (stride : Z) (l : list nat) (gs : list (list nat)) : Prop := {
  gp_concat : concat gs = l;
  gp_nonempty : Forall (fun g => g <> []) gs;
  gp_inside : forall g, In g gs -> forall u a b v, g = u ++ a :: b :: v -> (gap a b <= stride)%Z;
  gp_across : forall u g a b h v, gs = u ++ (g ++ [a]) :: (b :: h) :: v -> (stride < gap a b)%Z }.

(** first and last sample of a piece *)
Definition starts_at (g : list nat) (a : nat) : Prop := exists t, g = a :: t.
Definition ends_at (g : list nat) (b : nat) : Prop := exists t, g = t ++ [b].

Definition inside (m : minmax) (x : Q) : Prop := (mn m <= x /\ x <= mx m)%Q.

(** the piece qualifies as a peak *)
Definition qualifies (time len : minmax) (wid : Q) (g : list nat) : Prop :=
  exists a b, starts_at g a /\ ends_at g b /\
  inside time (qn a * wid) /\ inside time (qn b * wid) /\ inside len (qn (b + 1 - a)).

(** charge of the samples lo <= i < hi of a waveform *)
Definition charge_in (lo hi : nat) (row : list Q) : Q :=
  sumF (fun i => nth i row 0%Q) (filter (fun i => (lo <=? i) && (i <? hi)) (seq 0 (length row))).

(** the list of all charges of a sensor is unchanged in total *)
Definition same_totals (m m' : mat) : Prop := Forall2 (fun r r' => sumQ r' == sumQ r)%Q (rows m) (rows m').

(** consecutive slices covering 0..n *)
Fixpoint covers (lo n : nat) (sl : list (nat * nat)) : Prop :=
  match sl with
  | [] => lo = n
  | (a, b) :: sl => a = lo /\ lo < b /\ covers b n sl
  end.

(** Every column of [m] has as many entries as [m] claims and the SiPM readout
    matches the PMT readout: [r] PMT samples per SiPM sample, the rebinning factor
    is a multiple of it, and the SiPM buffer is long enough. *)
Definition good_selection (sel : mat -> list nat * mat) : Prop :=
  forall m, is_mat m -> length (fst (sel m)) = length (rows (snd (sel m))) /\ cols (snd (sel m)) = cols m /\
            Forall (fun i => i < length (rows m)) (fst (sel m)).
Definition readout_ok (ccwfs : mat) (sm : mat) (sipm_ids : list nat) (rebin_stride : Z) (pw sw : Q)
           (sel : mat -> list nat * mat) (r m : nat) : Prop :=
  0 < r /\ 0 < m /\ Qfloor (sw / pw) = Z.of_nat r /\ rebin_stride = Z.of_nat (r * m) /\
  is_mat sm /\ cols ccwfs <= r * cols sm /\ length sipm_ids = length (rows sm) /\ good_selection sel.
Definition s2_setup (sipms : option mat) (ccwfs : mat) (index sipm_ids : list nat) (rebin_stride : Z) (pw sw : Q)
           (sel : mat -> list nat * mat) : Prop :=
  match sipms with
  | None => True
  | Some sm => (exists r m, readout_ok ccwfs sm sipm_ids rebin_stride pw sw sel r m) /\
               (forall i, In i index -> 0 < col_sum ccwfs i)%Q
  end.

(** the peak [pk] is made of the samples a..b of [ccwfs] and of nothing else *)
Definition made_of (ccwfs : mat) (wid : Q) (pmt_ids : list nat) (a b : nat) (pk : peak) : Prop :=
  r_ids (p_pmts pk) = pmt_ids /\
  Forall2 (fun r r' => sumQ r' == charge_in a (b + 1) r)%Q (rows ccwfs) (rows (r_wfs (p_pmts pk))) /\
  (sumQ (p_widths pk) == qn (b + 1 - a) * wid)%Q /\
  p_times pk <> [] /\
  (forall t, In t (p_times pk) -> qn a * wid <= t <= qn b * wid)%Q.

(** Greedy cutting of a waveform by charge: [a,b) reaches the threshold exactly at
    its last sample; the final piece cannot be cut again without leaving a
    remainder below the threshold. *)
Definition just_reaches (wf : list Q) (thr : Q) (a b : nat) : Prop :=
  (thr <= charge_in a b wf)%Q /\ forall c, a < c < b -> (charge_in a c wf < thr)%Q.
Definition final_piece (wf : list Q) (thr : Q) (a d : nat) : Prop :=
  forall c, a < c < d -> just_reaches wf thr a c -> (charge_in c d wf < thr)%Q.

(** a peak as the constructors leave it *)
Definition consistent (p : peak) : Prop :=
  is_mat (r_wfs (p_pmts p)) /\ is_mat (r_wfs (p_sipms p)) /\
  0 < length (p_times p) /\ length (p_widths p) = length (p_times p) /\
  cols (r_wfs (p_pmts p)) = length (p_times p) /\ length (r_ids (p_pmts p)) = length (rows (r_wfs (p_pmts p))) /\
  length (r_ids (p_sipms p)) = length (rows (r_wfs (p_sipms p))) /\
  (r_ids (p_sipms p) <> [] -> cols (r_wfs (p_sipms p)) = length (p_times p)).
