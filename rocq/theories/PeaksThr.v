(** Threshold slices and rebinning of peaks *)
From Verif Require Import Base PeaksModel PeaksSpec PeaksProofs PeaksMore PeaksFind.
Local Open Scope Q_scope.

Lemma removelast_cons {A} (x : A) l : l <> [] -> removelast (x :: l) = x :: removelast l.
Proof. destruct l; [easy|reflexivity]. Qed.
Lemma last_cons {A} (x : A) l d : l <> [] -> last (x :: l) d = last l d.
Proof. destruct l; [easy|reflexivity]. Qed.

Lemma slice_sum_split wf a b c : (a <= b)%nat -> (b <= c)%nat -> sumQ (slice a c wf) == sumQ (slice a b wf) + sumQ (slice b c wf).
Proof. intros. rewrite <- (slice_cat a b c) by assumption. apply sumQ_app. Qed.

Definition reach wf thr (sl : nat * nat) := just_reaches wf thr (fst sl) (snd sl).
Definition low wf thr (sl : nat * nat) := forall c, (fst sl < c < snd sl)%nat -> charge_in (fst sl) c wf < thr.

Lemma thr_loop_spec wf thr rest : forall pre li ls acc,
  wf = pre ++ rest -> (li <= length pre)%nat -> acc == sumQ pre -> ls == sumQ (slice 0 li wf) -> rest <> [] ->
  (forall c, (li < c <= length pre)%nat -> charge_in li c wf < thr) ->
  let sl := thr_loop (length wf) thr (length pre) li ls (cumsum_from acc rest) in
  sl <> [] /\ covers li (length wf) sl /\ Forall (reach wf thr) (removelast sl) /\ low wf thr (last sl (0, 0)%nat).
Proof.
  induction rest as [|x rest IH]; intros pre li ls acc E Hli Hacc Hls Hne Hlow; [easy|]. cbn zeta. clear Hne.
  cbn [cumsum_from thr_loop].
  assert (Ln : length wf = (length pre + S (length rest))%nat) by (rewrite E, app_length; reflexivity).
  assert (E' : wf = (pre ++ [x]) ++ rest) by (rewrite E, <- app_assoc; reflexivity).
  assert (Lp : length (pre ++ [x]) = (length pre + 1)%nat) by (rewrite app_length; reflexivity).
  assert (Hacc' : acc + x == sumQ (pre ++ [x])) by (rewrite sumQ_app; cbn; lra).
  assert (P0 : forall k, (k = length pre + 1)%nat -> sumQ (slice 0 k wf) == sumQ (pre ++ [x])).
  { intros k ->. unfold slice. cbn [skipn]. rewrite Nat.sub_0_r, E', <- Lp, firstn_app, Nat.sub_diag, firstn_all.
    cbn [firstn]. now rewrite app_nil_r. }
  assert (D : acc + x - ls == charge_in li (length pre + 1) wf).
  { rewrite charge_in_slice. pose proof (slice_sum_split wf 0 li (length pre + 1) ltac:(lia) ltac:(lia)) as S.
    rewrite (P0 _ eq_refl) in S. lra. }
  destruct (Nat.eqb_spec (length pre) (length wf - 1)) as [L|L]; cbn [orb].
  - assert (rest = []) by (destruct rest; [reflexivity|cbn in Ln; lia]). subst rest. cbn [cumsum_from thr_loop].
    split; [discriminate|]. cbn [length] in Ln. split; [cbn; lia|]. cbn [removelast last]. split; [constructor|].
    intros c Hc. cbn [fst snd] in *. apply Hlow. lia.
  - assert (Hr : rest <> []) by (intros ->; cbn in Ln; lia).
    destruct (Qleb_spec thr (acc + x - ls)) as [H|H].
    + destruct (IH (pre ++ [x]) (length pre + 1)%nat (acc + x) (acc + x)) as (N & C & F & W); auto.
      { lia. } { rewrite (P0 _ eq_refl). assumption. } { intros c Hc. lia. }
      rewrite Lp in *. cbn zeta in *. split; [discriminate|]. split; [cbn [covers]; split; [reflexivity|split; [lia|assumption]]|].
      rewrite removelast_cons, last_cons by assumption. split; [|assumption]. constructor; [|assumption].
      split; cbn [fst snd]; [lra|]. intros c Hc. apply Hlow. lia.
    + destruct (IH (pre ++ [x]) li ls (acc + x)) as (N & C & F & W); auto.
      { lia. }
      { intros c Hc. rewrite Lp in Hc. destruct (Nat.eq_dec c (length pre + 1)) as [->|]; [lra|]. apply Hlow. lia. }
      rewrite Lp in *. auto.
Qed.

Lemma merge_last_app u a b c d : merge_last (u ++ [(a, b); (c, d)]) = u ++ [(a, d)].
Proof.
  induction u as [|[x y] u IH]; [reflexivity|]. cbn [app merge_last].
  destruct u as [|[p p'] [|[q q'] u]]; try reflexivity; cbn [app] in *; now rewrite IH.
Qed.

Lemma two_last {A} (l : list A) : (1 < length l)%nat -> exists u x y, l = u ++ [x; y].
Proof.
  intros H. destruct (exists_last (l := l)) as (u & y & ->); [intros ->; cbn in H; lia|].
  rewrite app_length in H. cbn in H. destruct (exists_last (l := u)) as (v & x & ->); [intros ->; cbn in H; lia|].
  exists v, x, y. now rewrite <- app_assoc.
Qed.

Lemma covers_app lo n u v : covers lo n (u ++ v) <-> exists k, covers lo k u /\ covers k n v.
Proof.
  revert lo; induction u as [|[a b] u IH]; intros lo; cbn [app covers].
  - split; [intros; exists lo; auto|]. intros (k & -> & H). assumption.
  - rewrite IH. split.
    + intros (-> & H & k & H1 & H2). exists k. auto.
    + intros (k & (-> & H & H1) & H2). split; [reflexivity|]. split; [assumption|]. eauto.
Qed.

Lemma removelast_app2 {A} (u : list A) x y : removelast (u ++ [x; y]) = u ++ [x].
Proof. replace (u ++ [x; y]) with ((u ++ [x]) ++ [y]) by (rewrite <- app_assoc; reflexivity). apply removelast_last. Qed.
Lemma last_app2 {A} (u : list A) x y d : last (u ++ [x; y]) d = y.
Proof. replace (u ++ [x; y]) with ((u ++ [x]) ++ [y]) by (rewrite <- app_assoc; reflexivity). apply last_app_one. Qed.

Lemma threshold_slices_spec wf thr : wf <> [] ->
  let sl := get_threshold_slices wf thr in
  covers 0 (length wf) sl /\ sl <> [] /\ Forall (reach wf thr) (removelast sl) /\
  final_piece wf thr (fst (last sl (0, 0)%nat)) (snd (last sl (0, 0)%nat)) /\
  ((forall x, In x wf -> 0 <= x) -> (1 < length sl)%nat -> Forall (fun s => thr <= charge_in (fst s) (snd s) wf) sl).
Proof.
  intros Hne. cbn zeta. unfold get_threshold_slices.
  destruct (thr_loop_spec wf thr wf [] 0 0 0) as (N & C & F & W); auto; try reflexivity.
  { intros c Hc. cbn in Hc. lia. }
  change (length (@nil Q)) with 0%nat in *. cbn zeta in *. unfold np_cumsum.
  set (sl := thr_loop (length wf) thr 0 0 0 (cumsum_from 0 wf)) in *.
  assert (LF : forall a d, low wf thr (a, d) -> final_piece wf thr a d).
  { intros a d H c Hc [J _]. specialize (H c Hc). cbn [fst] in H. lra. }
  destruct (Nat.ltb_spec 1 (length sl)) as [L|L]; cbn [andb].
  - destruct (two_last sl L) as (u & [a b] & [b' d] & Esl). rewrite Esl in *. clear Esl.
    rewrite removelast_app2 in F. rewrite last_app2 in *. cbn [fst snd] in *.
    apply covers_app in C. destruct C as (k & C1 & C2). cbn [covers] in C2.
    destruct C2 as (-> & Hab & -> & Hbd & Ed). subst d.
    apply Forall_app in F. destruct F as [F1 F2]. inversion F2 as [|? ? R _]; subst. unfold reach in R. cbn [fst snd] in R.
    destruct (Qltb_spec (sumQ (slice b (length wf) wf)) thr) as [T|T].
    + rewrite merge_last_app. split; [apply covers_app; exists k; split; [assumption|cbn; lia]|].
      split; [destruct u; discriminate|]. rewrite removelast_last, last_app_one. split; [assumption|]. cbn [fst snd].
      split.
      * intros c Hc [J1 J2]. destruct R as [R1 R2]. destruct (lt_eq_lt_dec c b) as [[Hl| ->]|Hg].
        -- specialize (R2 c ltac:(lia)). lra.
        -- rewrite charge_in_slice. assumption.
        -- specialize (J2 b ltac:(lia)). lra.
      * intros Hpos _. apply Forall_app. split.
        -- eapply Forall_impl; [|exact F1]. intros s [J _]. assumption.
        -- constructor; [|constructor]. cbn [fst snd]. destruct R as [R1 _].
           rewrite charge_in_slice in *. rewrite (slice_sum_split wf k b (length wf)) by lia.
           assert (0 <= sumQ (slice b (length wf) wf)); [|lra].
           rewrite sumQ_sumF. apply sumF_nonneg. intros x Hx. apply Hpos. unfold slice in Hx.
           rewrite <- (firstn_skipn b wf). apply in_app_iff. right.
           rewrite <- (firstn_skipn (length wf - b) (skipn b wf)). apply in_app_iff. now left.
    + split; [apply covers_app; exists k; split; [assumption|cbn; lia]|]. split; [assumption|].
      rewrite removelast_app2, last_app2. split; [apply Forall_app; split; assumption|]. split; [apply LF; assumption|].
      intros _ _. apply Forall_app. split; [eapply Forall_impl; [|exact F1]; intros s [J _]; assumption|].
      constructor; [destruct R; assumption|]. constructor; [|constructor]. cbn [fst snd]. now rewrite charge_in_slice.
  - split; [assumption|]. split; [assumption|]. split; [assumption|]. split; [|lia].
    destruct (last sl (0, 0)%nat) as [a d] eqn:El. apply LF. assumption.
Qed.

(** ---------- rebin_peak ---------- *)
Lemma covers_in lo n sl : covers lo n sl -> forall a b, In (a, b) sl -> (lo <= a /\ a < b /\ b <= n)%nat.
Proof.
  revert lo; induction sl as [|[x y] sl IH]; intros lo C a b H; [easy|]. cbn in C. destruct C as (-> & Hl & C).
  pose proof (covers_le _ _ _ C). destruct H as [E|H]; [inversion E; subst; lia|]. specialize (IH y C a b H). lia.
Qed.

Lemma rebin_totals n sl times widths wfs : covers 0 n sl -> (length times <= n)%nat ->
  (forall a b, In (a, b) sl -> (a < length times)%nat) ->
  cols wfs = length times -> is_mat wfs -> length widths = length times ->
  exists ts ws m, rebin_slices sl times widths wfs = Ok (ts, ws, m) /\ length ts = length sl /\ length ws = length sl /\
    cols m = length sl /\ is_mat m /\ sumQ ws == sumQ widths /\ same_totals wfs m.
Proof.
  intros C Hn Hs Hc Hm Hw.
  destruct (rebin_slices_ok sl times widths wfs Hc) as (ts & E & F).
  { intros a b Hab. split; [eauto|]. apply (covers_in _ _ _ C a b Hab). }
  eexists ts, _, _. split; [exact E|]. split; [symmetry; now apply Forall2_len in F|]. split; [now rewrite map_length|].
  split; [reflexivity|]. split.
  - unfold is_mat. cbn [rows cols]. apply Forall_forall. intros r Hr. apply in_map_iff in Hr. destruct Hr as (r0 & <- & _). now rewrite map_length.
  - split.
    + rewrite (covers_sum widths _ _ _ C). rewrite slice_all by lia. reflexivity.
    + unfold same_totals. cbn [rows]. apply Forall2_self. intros r Hr. rewrite (covers_sum r _ _ _ C).
      unfold is_mat in Hm. rewrite Forall_forall in Hm. rewrite slice_all; [reflexivity|]. rewrite (Hm r Hr). lia.
Qed.

Lemma same_totals_len m m' : same_totals m m' -> length (rows m) = length (rows m').
Proof. apply Forall2_len. Qed.

Lemma rebin_to_slices_spec p n sl : consistent p -> covers 0 n sl -> sl <> [] -> (length (p_times p) <= n)%nat ->
  (forall a b, In (a, b) sl -> (a < length (p_times p))%nat) ->
  exists p', rebin_peak_to_slices p sl = Ok p' /\ consistent p' /\ length (p_times p') = length sl /\
    r_ids (p_pmts p') = r_ids (p_pmts p) /\ r_ids (p_sipms p') = r_ids (p_sipms p) /\
    sumQ (p_widths p') == sumQ (p_widths p) /\ same_totals (r_wfs (p_pmts p)) (r_wfs (p_pmts p')) /\
    same_totals (r_wfs (p_sipms p)) (r_wfs (p_sipms p')).
Proof.
  intros (M1 & M2 & L0 & Lw & Lp & Ip & Is & Ls) C Hne Hn Hs. unfold rebin_peak_to_slices.
  destruct (rebin_totals n sl (p_times p) (p_widths p) (r_wfs (p_pmts p)) C Hn Hs Lp M1 Lw) as (ts & ws & m & E & H1 & H2 & H3 & H4 & H5 & H6).
  rewrite E. cbn [rbind]. unfold mk_responses at 1. rewrite Ip, (same_totals_len _ _ H6), Nat.eqb_refl. cbn [negb rbind].
  assert (Lsl : (0 < length sl)%nat) by (destruct sl; [easy|cbn; lia]).
  destruct (r_ids (p_sipms p)) as [|i0 ids] eqn:Ei.
  - unfold mk_peak, check_valid_input. cbn [r_wfs]. rewrite H1, H3. change (cols (r_wfs empty_responses)) with 0%nat.
    destruct (Nat.eqb_spec (length sl) 0); [lia|]. rewrite Nat.eqb_refl. cbn [negb orb andb rbind Nat.eqb].
    rewrite ?andb_false_r. cbn [rbind]. eexists. split; [reflexivity|]. unfold consistent. cbn [p_times p_widths p_pmts p_sipms r_wfs r_ids empty_responses cols rows length].
    assert (R0 : rows (r_wfs (p_sipms p)) = []) by (cbn in Is; destruct (rows (r_wfs (p_sipms p))); [reflexivity|discriminate]).
    repeat split; try assumption; try lia; try congruence.
    + constructor.
    + rewrite Ip. now rewrite (same_totals_len _ _ H6).
    + unfold same_totals. rewrite R0. constructor.
  - rewrite <- Ei in *. assert (Hi : r_ids (p_sipms p) <> []) by (rewrite Ei; discriminate).
    destruct (rebin_totals n sl (p_times p) (p_widths p) (r_wfs (p_sipms p)) C Hn Hs (Ls Hi) M2 Lw) as (ts' & ws' & m' & E' & J1 & J2 & J3 & J4 & J5 & J6).
    rewrite E'. cbn [rbind]. unfold mk_responses. rewrite Is, (same_totals_len _ _ J6), Nat.eqb_refl. cbn [negb rbind].
    unfold mk_peak, check_valid_input. cbn [r_wfs]. rewrite H1, H3, J3.
    destruct (Nat.eqb_spec (length sl) 0); [lia|]. rewrite Nat.eqb_refl. cbn [negb orb andb rbind].
    eexists. split; [reflexivity|]. unfold consistent. cbn [p_times p_widths p_pmts p_sipms r_wfs r_ids].
    repeat split; try assumption; try lia; try congruence.
    + rewrite Ip. now rewrite (same_totals_len _ _ H6).
    + rewrite Is. now rewrite (same_totals_len _ _ J6).
Qed.

Lemma same_totals_refl m : same_totals m m.
Proof. unfold same_totals. apply Forall2_same. reflexivity. Qed.

Lemma rebin_peak_spec p md : consistent p ->
  exists p', rebin_peak p md = Ok p' /\ consistent p' /\
    r_ids (p_pmts p') = r_ids (p_pmts p) /\ r_ids (p_sipms p') = r_ids (p_sipms p) /\
    sumQ (p_widths p') == sumQ (p_widths p) /\ same_totals (r_wfs (p_pmts p)) (r_wfs (p_pmts p')) /\
    same_totals (r_wfs (p_sipms p)) (r_wfs (p_sipms p')).
Proof.
  intros Hp. pose proof Hp as (M1 & M2 & L0 & Lw & Lp & Ip & Is & Ls).
  destruct md as [f|thr]; cbn [rebin_peak].
  - destruct (Z.leb_spec f 1).
    + exists p. split; [reflexivity|]. split; [assumption|]. repeat split; try reflexivity; try apply same_totals_refl; apply Hp.
    + set (s := Z.to_nat f). assert (Hs : (0 < s)%nat) by lia. set (n := length (p_times p)) in *.
      pose proof (cdiv_spec n s Hs).
      destruct (rebin_to_slices_spec p (s * cdiv n s) (even_slices n s) Hp) as (p' & E & H1 & H2 & H3); try apply even_slices_covers; try lia.
      { intros E0. pose proof (length_even n s) as Hl. rewrite E0 in Hl. pose proof (cdiv_pos n s Hs L0). cbn in Hl. lia. }
      { intros a b Hab. apply even_slices_in in Hab; [|assumption]. fold n. lia. }
      exists p'. tauto.
  - assert (Lpm : length (pmt_sum p) = length (p_times p)) by (unfold pmt_sum; rewrite length_sum_over_sensors; assumption).
    destruct (threshold_slices_spec (pmt_sum p) thr) as (C & N & _); [intros E; rewrite E in Lpm; cbn in Lpm; lia|].
    rewrite Lpm in C.
    destruct (rebin_to_slices_spec p (length (p_times p)) (get_threshold_slices (pmt_sum p) thr) Hp C N) as (p' & E & H1 & H2 & H3); try lia.
    { intros a b Hab. pose proof (covers_in _ _ _ C a b Hab). lia. }
    exists p'. tauto.
Qed.
