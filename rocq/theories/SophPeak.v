(** Proofs for C70: the hits of a peak *)
From Verif Require Import Base PeaksModel PeaksSpec PeaksMore PeaksThr PmapioModel PmapioProofs FiltersModel HitsModel HitsProofs HitsProps KrModel KrProps DbThr SophModel SophSpec.
Local Open Scope Q_scope.

Lemma rebin_any_args p md : rebin_any p (fst (args_of md)) (snd (args_of md)) = rebin_peak p md.
Proof.
  destruct md as [f|x]; [|reflexivity]. cbn [args_of fst snd rebin_any rebin_peak]. rewrite Qfloor_Z.
  destruct (Z.leb_spec f 1) as [H|H].
  - replace (Qle_bool (inject_Z f) 1) with true; [reflexivity|]. symmetry. apply Qle_bool_iff. change 1 with (inject_Z 1). now rewrite <- Zle_Qle.
  - destruct (Qleb_spec (inject_Z f) 1) as [C|_]; [change 1 with (inject_Z 1) in C; rewrite <- Zle_Qle in C; lia|].
    destruct (Qeqb_spec (inject_Z f) (inject_Z f)) as [_|C]; [|now destruct C]. destruct (Z.leb_spec f 1); [lia|reflexivity].
Qed.

(** ---------- the selected peaks ---------- *)
Lemma picked_selected_from {A} i flags (l : list A) : length flags = length l ->
  picked i flags l (map (fun '(i, (_, p)) => (i, p)) (filter (fun '(_, (b, _)) => b) (combine (seq i (length flags)) (combine flags l)))).
Proof. revert i l. induction flags as [|[] flags IH]; intros i [|a l] H; try discriminate; cbn; constructor; apply IH; cbn in H; lia. Qed.
Lemma picked_fun {A} i flags (l : list A) o1 o2 : picked i flags l o1 -> picked i flags l o2 -> o1 = o2.
Proof. intros H. revert o2. induction H; intros o2 H2; inversion H2; subst; f_equal; auto. Qed.
Lemma picked_length {A} i flags (l : list A) o : picked i flags l o -> length flags = length l.
Proof. induction 1; cbn; lia. Qed.
Lemma picked_is flags l o : picked 0 flags l o -> selected flags l = o.
Proof. intros H. eapply picked_fun; [|exact H]. apply picked_selected_from. now apply picked_length in H. Qed.
Lemma picked_where {A} i flags (l : list A) j a rest : picked i flags l ((j, a) :: rest) ->
  exists js, where_from i (fun b => b) flags = j :: js /\ nth_error l (j - i) = Some a /\ (i <= j)%nat.
Proof.
  remember ((j, a) :: rest) as o eqn:E. intros H. revert E. induction H; intros E; [discriminate| |].
  - injection E as -> -> ->. cbn. eexists. split; [reflexivity|]. rewrite Nat.sub_diag. split; [reflexivity|lia].
  - destruct (IHpicked E) as (js & W & N & L). cbn. exists js. split; [exact W|]. split; [|lia]. replace (j - i)%nat with (S (j - S i)) by lia. exact N.
Qed.
Lemma picked_none {A} i flags (l : list A) : picked i flags l [] -> where_from i (fun b => b) flags = [].
Proof. remember [] as o eqn:E. intros H. revert E. induction H; intros E; [reflexivity|discriminate|cbn; auto]. Qed.
Lemma picked_range {A} i flags (l : list A) o j a : picked i flags l o -> In (j, a) o -> (i <= j < i + length l)%nat /\ In a l.
Proof.
  induction 1 as [| i b f l out H IH | i b f l out H IH]; intros Hin; [easy| |].
  - destruct Hin as [E|Hin]; [injection E as -> ->; cbn; split; [lia|now left]|]. destruct (IH Hin). cbn. split; [lia|now right].
  - destruct (IH Hin). cbn. split; [lia|now right].
Qed.

Lemma start_found pm sel t0 : start_of_drift pm sel t0 -> get_s1_time pm sel = Ok t0.
Proof.
  unfold get_s1_time, np_where. intros [(i & p & rest & H & ->)|(H & i & p & rest & ts & H2 & E)].
  - destruct (picked_where _ _ _ _ _ _ H) as (js & -> & N & _). unfold item. rewrite Nat.sub_0_r in N. now rewrite N.
  - rewrite (picked_none _ _ _ H). destruct (picked_where _ _ _ _ _ _ H2) as (js & -> & N & _). unfold item at 1. rewrite Nat.sub_0_r in N. rewrite N. cbn [rbind]. now rewrite E.
Qed.

(** ---------- one peak ---------- *)
Lemma combine_map_seq {A B} (f : nat -> A) (g : nat -> B) l : combine (map f l) (map g l) = map (fun k => (f k, g k)) l.
Proof. induction l as [|a l IH]; [reflexivity|]. cbn. now rewrite IH. Qed.
Lemma map2_map_seq {A B C} (h : A -> B -> C) (f : nat -> A) (g : nat -> B) l : map2 h (map f l) (map g l) = map (fun k => h (f k) (g k)) l.
Proof. induction l as [|a l IH]; [reflexivity|]. cbn. now rewrite IH. Qed.
Lemma as_seq {A B} (g : A -> B) l d n : length l = n -> map g l = map (fun k => g (nth k l d)) (seq 0 n).
Proof. intros <-. symmetry. apply map_nth_seq. Qed.

Lemma lit_positions (xys : list (Q * Q)) thr ids ps (qs : list Q) : Forall2 (fun i q => nth_error xys i = Some q) ids ps ->
  Forall2 (fun (s : nat * Q) (x : Q * Q * Q) => nth_error xys (fst s) = Some (fst x) /\ snd s = snd x)
    (filter (fun s => Qle_bool thr (snd s)) (combine ids qs)) (filter (fun s => Qle_bool thr (snd s)) (combine ps qs)).
Proof.
  intros F. revert qs. induction F as [|j q l m Hj F IH]; intros [|c qs]; try constructor. cbn [combine filter snd].
  destruct (Qle_bool thr c); [constructor; [split; [exact Hj|reflexivity]|]|]; apply IH.
Qed.
Lemma sumF_F2 (xys : list (Q * Q)) (l : list (nat * Q)) (m : list (Q * Q * Q)) : Forall2 (fun s x => nth_error xys (fst s) = Some (fst x) /\ snd s = snd x) l m -> sumF snd l = sumF snd m.
Proof. induction 1 as [|s x l m [_ E] F IH]; [reflexivity|]. unfold sumF in *. cbn. now rewrite E, IH. Qed.

Section Peak.
  Variable xys : list (Q * Q).
  Variable v : Q.
  Variable noise : list nat -> list Q -> Z -> list Q.
  Variable sw : Q -> Z.
  Variable ct : charge_type.
  Variable greco : list (Q * Q) -> list Q -> result (option (list (Q * Q))).
  Notation ch := (charge_of ct noise sw).

  Lemma slices_of p : usable xys p ->
    charge_slices noise sw ct p = map (charges_at ch p) (seq 0 (length (p_times p))) /\ charge_single noise sw ct p = charges_in ch p.
  Proof.
    intros ((M1 & M2 & L0 & Lw & Lp & Ip & Is & Ls) & Hn & Hi). specialize (Ls Hn). unfold charge_slices, charge_single, charges_at, charges_in, charge_of, transposed, column, sum_over_times. rewrite Ls.
    destruct ct; [split; reflexivity|]. split; [|reflexivity].
    rewrite <- (map_id (p_widths p)) at 1. rewrite (as_seq (fun x => x) (p_widths p) 0 (length (p_times p)) Lw). rewrite map2_map_seq. reflexivity.
  Qed.
  Lemma energies_of p : usable xys p -> pmt_sum p = map (energy_at p) (seq 0 (length (p_times p))).
  Proof. intros ((M1 & M2 & L0 & Lw & Lp & _) & _). unfold pmt_sum, sum_over_sensors. rewrite Lp. reflexivity. Qed.

  Lemma peak_hits_ok slice_hits a b ev ts t0 i p p' (R : list (Q * Q) -> nat -> list sipm_hit -> Prop) :
    rebin_any p a b = Ok p' -> usable xys p' -> global_ends greco ->
    (forall ps k, Forall2 (fun i q => nth_error xys i = Some q) (r_ids (p_sipms p')) ps -> (k < length (p_times p'))%nat ->
       exists hs, slice_hits ps (charges_at ch p' k) (energy_at p' k) = Ok hs /\ R ps k hs) ->
    exists xp yp ps groups, Forall2 (fun i q => nth_error xys i = Some q) (r_ids (p_sipms p')) ps /\
      Forall2 (R ps) (seq 0 (length (p_times p'))) groups /\ position_found greco ps (charges_in ch p') (xp, yp) /\
      peak_hits xys v noise sw ct greco slice_hits a b ev ts t0 i p =
      Ok (concat (map2 (fun k hs => map (fun h => {| q_event := ev; q_time := ts * (1 # 1000); q_npeak := i; q_Xpeak := xp; q_Ypeak := yp;
             q_X := sx h; q_Y := sy h; q_Z := (nth k (p_times p') 0 - t0) * 1 * v; q_Q := sq h; q_E := se h |}) hs) (seq 0 (length (p_times p'))) groups)).
  Proof.
    intros Er Hu Hg Hs. pose proof (slices_of p' Hu) as [Ec Es]. pose proof (energies_of p' Hu) as Ee. destruct Hu as (Hc & Hn & Hi).
    unfold peak_hits. rewrite Er. cbn [rbind]. unfold positions. destruct (fancy_ok xys (r_ids (p_sipms p')) Hi) as (ps & Ef & Lps & Fps).
    destruct (r_ids (p_sipms p')) as [|i0 ids] eqn:Eids; [easy|]. rewrite <- Eids in *. rewrite Ef. cbn [rbind]. unfold try_global_reco.
    destruct (Hg ps (charge_single noise sw ct p')) as (o & Eo & Ho). rewrite Eo. cbn [rbind].
    assert (exists xp yp, match o with None => Ok (HitsModel.NN, HitsModel.NN) | Some cs => item cs 0 end = Ok (xp, yp) /\ position_found greco ps (charges_in ch p') (xp, yp)) as (xp & yp & -> & Hxy).
    { unfold position_found. rewrite Es in Eo. destruct o as [[|[x y] cs]|]; [now destruct Ho|exists x, y; split; [reflexivity|left; exists cs; assumption]|eexists _, _; split; [reflexivity|right; split; [assumption|reflexivity]]]. }
    cbn [rbind]. rewrite Ec, Ee, combine_map_seq. rewrite (as_seq (fun t => (t - t0) * 1 * v) (p_times p') 0 _ eq_refl), combine_map_seq.
    set (n := length (p_times p')) in *.
    destruct (rmap_all_forall2 (fun k => slice_hits ps (charges_at ch p' k) (energy_at p' k)) (R ps) (seq 0 n)) as (groups & Eg & Fg).
    { intros k Hk. apply in_seq in Hk. apply Hs; [assumption|lia]. }
    exists xp, yp, ps, groups. split; [assumption|]. split; [assumption|]. split; [assumption|].
    match goal with |- context [rmap ?f (map ?g ?l)] => assert (K : rmap f (map g l) = Ok (map2 (fun k hs => map (fun h => {| q_event := ev; q_time := ts * (1 # 1000); q_npeak := i; q_Xpeak := xp; q_Ypeak := yp;
             q_X := sx h; q_Y := sy h; q_Z := (nth k (p_times p') 0 - t0) * 1 * v; q_Q := sq h; q_E := se h |}) hs) l groups)) end.
    { clear Fg. revert groups Eg. generalize (seq 0 n). clear. intros l. induction l as [|k l IH]; intros groups E; [cbn in E; injection E as <-; reflexivity|].
      cbn [rmap] in E. destruct (slice_hits ps (charges_at ch p' k) (energy_at p' k)) as [hs|] eqn:E1; [|discriminate]. cbn [rbind] in E.
      destruct (rmap _ l) as [g|] eqn:E2; [|discriminate]. cbn [rbind] in E. injection E as <-. cbn [map rmap]. rewrite E1. cbn [rbind]. rewrite (IH g eq_refl). reflexivity. }
    rewrite K. reflexivity.
  Qed.

  Lemma sample_of thr t0 p k i ev ts xp yp ps hs : usable xys p -> 0 < thr ->
    (forall ids qs w, length ids = length qs -> length (ch ids qs w) = length qs) ->
    Forall2 (fun i q => nth_error xys i = Some q) (r_ids (p_sipms p)) ps ->
    sipms_above_threshold ps (charges_at ch p k) thr (energy_at p k) = Ok hs ->
    hits_of_sample xys v t0 ch thr p k (map (fun h => {| q_event := ev; q_time := ts; q_npeak := i; q_Xpeak := xp; q_Ypeak := yp;
             q_X := sx h; q_Y := sy h; q_Z := (nth k (p_times p) 0 - t0) * 1 * v; q_Q := sq h; q_E := se h |}) hs).
  Proof.
    intros ((M1 & M2 & L0 & Lw & Lp & Ip & Is & Ls) & Hn & Hi) Ht Hl F E.
    assert (Lq : length (charges_at ch p k) = length (r_ids (p_sipms p))) by (unfold charges_at; rewrite Hl, map_length; [now rewrite Is|now rewrite map_length]).
    destruct (C17_slice_energy_shared ps (charges_at ch p k) thr (energy_at p k)) as (hs' & E' & H).
    { rewrite Lq. symmetry. exact (Forall2_len _ _ _ F). }
    { intros q _ Hq. lra. }
    rewrite E in E'. injection E' as <-. unfold hits_of_sample. split.
    { apply Forall_forall. intros h Hh. apply in_map_iff in Hh. destruct Hh as (h0 & <- & _). cbn [q_Z]. ring. }
    (* the SiPMs over threshold, by position and by number *)
    set (sel := filter (fun p => Qle_bool thr (snd p)) (combine ps (charges_at ch p k))) in *.
    assert (G : Forall2 (fun (s : nat * Q) (x : Q * Q * Q) => nth_error xys (fst s) = Some (fst x) /\ snd s = snd x) (lit ch thr p k) sel).
    { unfold lit, sel. apply lit_positions, F. }
    clearbody sel. pose proof (sumF_F2 _ _ _ G) as Hsum. destruct H as [[Hs ->]|(Hs & _ & Hf)]; [left|right].
    - subst sel. inversion G. split; [reflexivity|]. eexists. split; [reflexivity|]. cbn. repeat split; reflexivity.
    - split; [intros C; rewrite C in G; inversion G; subst; now apply Hs|].
      rewrite Hsum. clear Hsum E Hs. revert Hf. generalize (sumF snd sel + EPSILON) as T. intros T Hf. revert hs Hf. induction G as [|s x l m [G1 G2] G IH]; intros hs Hf; inversion Hf as [|x' h' m' hs' (X1 & X2 & X3 & X4) F' E1 E2]; subst; [constructor|].
      cbn [map]. constructor; [|now apply IH]. cbn [q_X q_Y q_Q q_E]. rewrite X1, X2, X3, G1, G2. split; [now destruct (fst x)|]. split; [reflexivity|assumption].
  Qed.
End Peak.
