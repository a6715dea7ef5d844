(** Vocabulary for the statements about the PSF *)
From Verif Require Import Base PeaksModel CorrModel PsfModel.
Local Open Scope Q_scope.

(** two keys are the same if all their numbers are equal *)
Definition same_key : key -> key -> Prop := Forall2 Qeq.
(** the elements of a list with a given key *)
Inductive picks {A} (key_of : A -> key) (k : key) : list A -> list A -> Prop :=
| picks_nil : picks key_of k [] []
| picks_in a l m : same_key k (key_of a) -> picks key_of k l m -> picks key_of k (a :: l) (a :: m)
| picks_out a l m : ~ same_key k (key_of a) -> picks key_of k l m -> picks key_of k (a :: l) m.
(** no key occurs twice *)
Definition distinct_rows (t : list prow) : Prop := ForallOrdPairs (fun a b => ~ same_key (pkey a) (pkey b)) t.
(** a table as it comes from one file: distinct keys, nothing where there are no events *)
Definition well_formed (t : list prow) : Prop := distinct_rows t /\ forall r, In r t -> nevt r = 0%nat -> factor r == 0.
(** [acc] is the average of the rows of [rows], weighted with the number of events *)
Definition weighted_average (rows acc : list prow) : Prop :=
  distinct_rows acc
  /\ (forall k, (exists r, In r acc /\ same_key k (pkey r)) <-> (exists r, In r rows /\ same_key k (pkey r)))
  /\ forall r, In r acc -> exists same, picks pkey (pkey r) rows same
       /\ nevt r = sumN (map nevt same)
       /\ (nevt r = 0%nat -> factor r == 0)
       /\ (nevt r <> 0%nat -> factor r == sumF (fun s => factor s * qn (nevt s)) same / qn (nevt r)).
(** the same table up to the order of the rows *)
Definition agrees (r r' : prow) : Prop := same_key (pkey r) (pkey r') /\ factor r == factor r' /\ nevt r = nevt r'.
Definition same_table (t t' : list prow) : Prop :=
  length t = length t' /\ (forall r, In r t -> exists r', In r' t' /\ agrees r r') /\ (forall r', In r' t' -> exists r, In r t /\ agrees r r').

(** ---- the PSF computed directly from the processed hits ---- *)
(** a value is in bin i: half open, except for the last bin *)
Definition inside_bin (edges : list Q) (i : nat) (x : Q) : bool :=
  Qle_bool (nth i edges 0) x && (Qltb x (nth (S i) edges 0) || ((S (S i) =? length edges)%nat && Qle_bool x (nth (S i) edges 0))).
Definition centre (edges : list Q) (i : nat) : Q := (nth i edges 0 + nth (S i) edges 0) / 2.
Section Spec.
  Variable round2 : Q -> Q.
  Variables (xsectors ysectors xe ye : list Q).
  Notation sector := ((Q * Q) * (Q * Q))%type.
  Definition sectors : list sector := list_prod (intervals xsectors) (intervals ysectors).
  Definition in_sector (s : sector) (h : phit) : bool := in_range (xpeak h) (fst (fst s)) (snd (fst s)) && in_range (ypeak h) (fst (snd s)) (snd (snd s)).
  Definition bin_key (z : Q) (s : sector) (ij : nat * nat) : key :=
    [centre xe (fst ij); centre ye (snd ij); 0; round2 ((fst (fst s) + snd (fst s)) / 2); round2 ((fst (snd s) + snd (snd s)) / 2); z].
  (** one entry per hit, sector and bin that contains it: the key and the charge *)
  Definition entries (z : Q) (rows : list phit) : list (key * Q) :=
    flat_map (fun s => flat_map (fun ij => map (fun h => (bin_key z s ij, normq h))
      (filter (fun h => in_sector s h && inside_bin xe (fst ij) (relx h) && inside_bin ye (snd ij) (rely h)) rows)) (bins xe ye)) sectors.
  (** the keys of the table: all bins of the sectors in which there are hits *)
  Definition keyed (z : Q) (rows : list phit) (k : key) : Prop :=
    exists s ij h, In s sectors /\ In h rows /\ in_sector s h = true /\ (fst ij < length xe - 1)%nat /\ (snd ij < length ye - 1)%nat /\ same_key k (bin_key z s ij).
  (** [t] is the PSF of the processed hits of a number of slices *)
  Definition is_psf (slices : list (Q * list phit)) (t : list prow) : Prop :=
    distinct_rows t
    /\ (forall k, (exists r, In r t /\ same_key k (pkey r)) <-> (exists zr, In zr slices /\ keyed (fst zr) (snd zr) k))
    /\ forall r, In r t -> exists found, picks fst (pkey r) (flat_map (fun zr => entries (fst zr) (snd zr)) slices) found
         /\ nevt r = length found
         /\ (found = [] -> factor r == 0)
         /\ (found <> [] -> factor r == sumF snd found / qn (length found)).
End Spec.
(** no peak has hits in two of the files *)
Definition separate_peaks (files : list (list hit)) : Prop :=
  ForallOrdPairs (fun f g => forall h h', In h f -> In h' g -> ~ same_key (peak h) (peak h')) files.
(** the slices in z of the files, with their hits processed *)
Definition processed (x0 x1 y0 y1 : Q) (sensors : list (Q * Q)) (zbins : list Q) (files : list (list hit)) (slices : list (Q * list phit)) : Prop :=
  Forall2 (fun fz zr => fst zr = (fst (snd fz) + snd (snd fz)) / 2
                        /\ process_hits x0 x1 y0 y1 sensors (filter (fun h => in_range (hZ h) (fst (snd fz)) (snd (snd fz))) (fst fz)) = Ok (snd zr))
    (list_prod files (intervals zbins)) slices.
(** there is a hit in some sector, so that there is a table *)
Definition occupied (xsectors ysectors : list Q) (slices : list (Q * list phit)) : Prop :=
  exists zr s h, In zr slices /\ In s (sectors xsectors ysectors) /\ In h (snd zr) /\ in_sector s h = true.
(** two productions end in the same way and with the same table *)
Definition same_result (a b : result (option (list prow))) : Prop :=
  match a, b with
  | Ok (Some t), Ok (Some t') => same_table t t'
  | Ok None, Ok None => True
  | Err _, Err _ => True
  | _, _ => False
  end.

(** ---- the hits of one peak with the empty sensors around it ---- *)
(** the position of a hit and of an empty sensor; the latter is put at the lowest z of the hits *)
Definition hit_pos (h : hit) : key := [hX h; hY h; hZ h].
Definition is_lowest (l : list Q) (z : Q) : Prop := In z l /\ forall x, In x l -> z <= x.
(** the sensor is in the window of the size of the ranges around the peak *)
Definition in_window (x0 x1 y0 y1 xp yp : Q) (s : Q * Q) : Prop :=
  xp - (x1 - x0) / 2 <= fst s < xp + (x1 - x0) / 2 /\ yp - (y1 - y0) / 2 <= snd s < yp + (y1 - y0) / 2.
(** the charge at a position: that of the first hit there *)
Definition charge_at (df : list hit) (k : key) (q : Q) : Prop :=
  exists same, picks hit_pos k df same /\ q = match same with [] => 0 | h :: _ => hQ h end.
(** the positions of a peak at (xp, yp), each once: those of the hits and of the sensors in the window; with their charges *)
Definition peak_cells (x0 x1 y0 y1 : Q) (sensors : list (Q * Q)) (xp yp : Q) (df : list hit) (cells : list (key * Q)) : Prop :=
  ForallOrdPairs (fun a b => ~ same_key (fst a) (fst b)) cells
  /\ (forall k, (exists c, In c cells /\ same_key k (fst c)) <-> (exists h, In h df /\ same_key k (hit_pos h)) \/ (exists s z, In s sensors /\ in_window x0 x1 y0 y1 xp yp s /\ is_lowest (map hZ df) z /\ same_key k [fst s; snd s; z]))
  /\ (forall c, In c cells -> charge_at df (fst c) (snd c)).
(** [rows] are the processed rows of these positions, with the charge as fraction of the total *)
Definition processed_rows (xp yp : Q) (cells : list (key * Q)) (rows : list phit) : Prop :=
  Forall2 (fun c h => exists x y z, same_key (fst c) [x; y; z] /\ relx h == x - xp /\ rely h == y - yp /\ xpeak h = xp /\ ypeak h = yp /\ normq h == snd c / sumF snd cells) cells rows.
