(** C98: the trigger of diomira *)
From Verif Require Import Base Arrays PeaksModel PeaksSpec PeaksProofs PeaksMore PeaksFind PeaksProps WfmModel WfmSpec WfmProps CalibModel CalibSpec CalibProps CalibBlr PmapioModel FiltersModel FiltersSpec FiltersProps.
From Verif Require Import IreneModel IreneSpec IreneProofs IreneSteps IreneProps TrigModel TrigSpec.
Local Open Scope nat_scope.

Lemma distinct_spec l : distinct l = true <-> NoDup l.
Proof.
  induction l as [|x l IH]; cbn; [split; [constructor|reflexivity]|]. rewrite andb_true_iff, negb_true_iff, IH. split.
  - intros [H N]. constructor; [|assumption]. intros Hx. assert (existsb (Z.eqb x) l = true) by (apply existsb_exists; exists x; split; [assumption|apply Z.eqb_refl]). congruence.
  - intros H. inversion H as [|? ? Hx N]; subst. split; [|assumption]. destruct (existsb (Z.eqb x) l) eqn:E; [|reflexivity]. apply existsb_exists in E. destruct E as (y & Hy & E). apply Z.eqb_eq in E. now subst.
Qed.
Lemma position_lt c l : In c l -> position c l < length l.
Proof. induction l as [|x l IH]; [easy|]. cbn. intros [-> |H]; [rewrite Z.eqb_refl; lia|]. destruct (x =? c)%Z; [lia|]. specialize (IH H). lia. Qed.
Lemma position_first l k c : NoDup l -> nth_error l k = Some c -> position c l = k.
Proof.
  intros N. revert k. induction N as [|x l Hx N IH]; intros [|k] E; try easy; cbn in *; [injection E as ->; now rewrite Z.eqb_refl|]. destruct (Z.eqb_spec x c) as [-> |]; [|now rewrite (IH k E)].
  exfalso. apply Hx. now apply nth_error_In in E.
Qed.
Lemma position_inj l a b : In a l -> In b l -> position a l = position b l -> a = b.
Proof.
  induction l as [|x l IH]; [easy|]. cbn. intros [-> |Ha] [-> |Hb]; try (rewrite Z.eqb_refl); try reflexivity.
  - destruct (Z.eqb_spec a b); [now intros|easy].
  - destruct (Z.eqb_spec b a); [now intros|easy].
  - destruct (Z.eqb_spec x a), (Z.eqb_spec x b); try easy; try congruence. intros E. injection E. now apply IH.
Qed.

Lemma nth_error_same {A} (l m : list A) : (forall i, nth_error l i = nth_error m i) -> l = m.
Proof. revert m. induction l as [|x l IH]; intros [|y m] H; try reflexivity; pose proof (H 0) as H0; cbn in H0; try discriminate. injection H0 as ->. f_equal. apply IH. intros i. exact (H (S i)). Qed.

Section Proofs.
  Variable butter : Q -> Q * Q * Q.
  Variable sqrt : Q -> Q.
  Let decision := trigger_decision butter sqrt.

  (** a PMT without a sample above the least height *)
  Lemma silent c s cwf : ~ has_signal c cwf -> channel_peaks (fst (tc_height (tg_conf c))) s cwf = Err IndexError.
  Proof using.
    intros N. unfold channel_peaks. assert (E : indices_above_threshold cwf (fst (tc_height (tg_conf c))) = []).
    { destruct (indices_above_threshold _ _) as [|k l] eqn:E; [reflexivity|]. exfalso. apply N. assert (I : In k (indices_above_threshold cwf (fst (tc_height (tg_conf c))))) by (rewrite E; now left).
      unfold indices_above_threshold in I. apply in_np_where with (d := 0%Q) in I. destruct I as [I1 I2]. exists k. split; [assumption|]. destruct (Qltb_spec (fst (tc_height (tg_conf c))) (nth k cwf 0%Q)); [assumption|discriminate]. }
    rewrite E. unfold find_peaks. rewrite split_nil. reflexivity.
  Qed.
  Lemma heard c cwf : has_signal c cwf -> (fst (tg_time c) <= snd (tg_time c))%Q ->
    exists pks, channel_peaks (fst (tc_height (tg_conf c))) {| k_time := {| mn := fst (tg_time c); mx := snd (tg_time c) |}; k_length := {| mn := fst (tg_length c); mx := snd (tg_length c) |}; k_stride := tg_stride c; k_rebin := tg_rebin c |} cwf = Ok pks /\ candidates c cwf pks.
  Proof using.
    intros (k & Hk & Hs) _. unfold channel_peaks. pose proof (in_above cwf (fst (tc_height (tg_conf c))) (length cwf) (fun k => nth k cwf 0%Q) eq_refl ltac:(intros; reflexivity)) as A.
    set (idx := indices_above_threshold cwf (fst (tc_height (tg_conf c)))) in *. assert (K : idx <> []) by (assert (I : In k idx) by (apply A; now split); intros E; rewrite E in I; easy).
    set (cc := {| cols := length cwf; rows := [cwf] |}). cbn [k_time k_length k_stride k_rebin]. set (ti := {| mn := fst (tg_time c); mx := snd (tg_time c) |}). set (le := {| mn := fst (tg_length c); mx := snd (tg_length c) |}).
    destruct (find_peaks_spec cc idx ti le (tg_stride c) (tg_rebin c) [0] [] pmt_sample sipm_sample None (fun m => ([], m))) as (pks & gs & q & E & G & Q & _ & F); try assumption.
    { apply A. } { intros i Hi. now apply A in Hi. } { repeat constructor. } { reflexivity. } { reflexivity. } { exact I. }
    exists pks. split; [exact E|]. exists idx. split; [exact A|]. pose proof (find_peaks_built _ _ _ _ _ _ _ _ _ _ _ _ _ _ _ K G Q E) as B.
    exists gs, q. split; [exact G|]. split; [exact Q|]. eapply Forall2_impl_in; [|apply (Forall2_and' _ _ _ _ F B)]. cbn beta. intros g pk Hg [(a & b & Ha & Hb & Hab & Hm') Bk].
    apply (s1_peak g a b cc 25 sipm_sample (tg_rebin c) [0] [] (fun m => ([], m)) pk); try assumption; [|repeat constructor|reflexivity]. apply A. rewrite <- (gp_concat _ _ _ G). apply in_concat. exists g. split; [now apply filter_In in Hg|]. destruct Hb as (t & ->). apply in_app_iff. right. now left.
  Qed.

  Lemma set_new k v d : ~ In k (map fst d) -> dict_set k v d = d ++ [(k, v)].
  Proof using. induction d as [|[k' v'] d IH]; intros H; [reflexivity|]. cbn in *. destruct (Nat.eqb_spec k k'); [exfalso; apply H; left; congruence|]. rewrite IH by tauto. reflexivity. Qed.

  (** the configuration is accepted *)
  Lemma accepted db c : good_trigger db c -> exists f, select_trigger_filter (Some (true, tg_conf c)) = Ok f /\
    emulate_trigger butter sqrt db c = Ok (fun rwfs =>
      rbind (deconv_pmt butter sqrt (masked_rows (map (fun ch => position ch (map dq_channel db)) (tg_channels c)) db) (tg_n_baseline c) rwfs) (fun cwfs =>
      peak_data (fst (tc_height (tg_conf c))) {| k_time := {| mn := fst (tg_time c); mx := snd (tg_time c) |}; k_length := {| mn := fst (tg_length c); mx := snd (tg_length c) |}; k_stride := tg_stride c; k_rebin := tg_rebin c |}
        (combine (map (fun ch => position ch (map dq_channel db)) (tg_channels c)) cwfs) [])).
  Proof using.
    intros G. assert (M : forall a b, (a <= b)%Q -> mk_minmax a b = Ok {| mn := a; mx := b |}) by (intros a b H; unfold mk_minmax; now rewrite (proj2 (Qle_bool_iff a b) H)).
    destruct G as [G1 G2 G3 G4 G5 G6 G7 G8]. eexists. split.
    - unfold select_trigger_filter. rewrite !M by assumption. cbn [rbind]. unfold minmax_mul. cbn [mn mx]. rewrite !M by (apply Qmult_le_compat_r; assumption). cbn [rbind]. reflexivity.
    - unfold emulate_trigger, channel_to_IC. rewrite (proj2 (distinct_spec _) G1). cbn [rbind]. rewrite !M by assumption. cbn [rbind].
      match goal with |- context [if ?b then Err ValueError else _] => assert (E : b = false); [|rewrite E; reflexivity] end.
      destruct (existsb _ _) eqn:E; [|reflexivity]. apply existsb_exists in E. destruct E as (ch & Hch & E). destruct (G2 ch Hch) as (d & Hd & E1 & E2). apply negb_true_iff in E.
      assert (existsb (fun d => (dq_channel d =? ch)%Z && pm_active (dq_row d)) db = true); [|congruence]. apply existsb_exists. exists d. split; [assumption|]. now rewrite E1, E2, Z.eqb_refl.
  Qed.

  Lemma all_in_use (db : list daq_row) : Forall (fun d => pm_active (dq_row d) = true) db -> filter pm_active (map dq_row db) = map dq_row db.
  Proof using. induction 1 as [|d l H F IH]; [reflexivity|]. cbn. now rewrite H, IH. Qed.
  (** the waveforms of all the PMTs *)
  Lemma all_deconvolved db n ns rwfs ids : ids <> [] -> Forall (fun d => pm_active (dq_row d) = true) db -> good_waveforms db n ns rwfs ->
    exists cwfs, deconv_pmt butter sqrt (masked_rows ids db) n rwfs = Ok cwfs /\ length cwfs = length db /\
      forall k d w, nth_error db k = Some d -> nth_error rwfs k = Some w -> exists cwf, nth_error cwfs k = Some cwf /\ deconvolved_wf butter sqrt n (dq_row d) w cwf.
  Proof using.
    intros Hi Act W. unfold masked_rows. destruct (Nat.eqb_spec (length ids) 0); [now destruct ids|]. unfold deconv_pmt. rewrite all_in_use, map_length, (gw_len _ _ _ _ W), Nat.eqb_refl by assumption. cbn [negb].
    pose proof (gw_base _ _ _ _ W). pose proof (gw_some _ _ _ _ W). destruct (Nat.eqb_spec n 0); [lia|]. destruct (Nat.eqb_spec (length db) 0); [lia|]. cbn [orb].
    destruct (rmap_Forall2 (fun dw => deconvolve_one butter sqrt n (fst dw) (snd dw)) (combine (map dq_row db) rwfs)) as (cwfs & E & F).
    { intros [d w] Hdw. pose proof (in_combine_l _ _ _ _ Hdw) as Hd. apply in_combine_r in Hdw. apply in_map_iff in Hd. destruct Hd as (d' & <- & Hd). unfold deconvolve_one. cbn [fst snd]. destruct (butter (pm_clean (dq_row d'))) as [[b0 b1] a1].
      apply C55_domain; [now apply (gw_blr _ _ _ _ W)|]. rewrite map_length. pose proof (gw_ns _ _ _ _ W) as L. rewrite Forall_forall in L. rewrite (L w Hdw). apply (gw_400 _ _ _ _ W). }
    exists cwfs. split; [exact E|]. pose proof (gw_len _ _ _ _ W) as L. split; [rewrite <- (Forall2_len _ _ _ F), combine_length, map_length; lia|].
    intros k d w Hd Hw. assert (C : nth_error (combine (map dq_row db) rwfs) k = Some (dq_row d, w)).
    { clear -Hd Hw. revert rwfs k Hd Hw. induction db as [|x db IH]; intros [|y rwfs] [|k] Hd Hw; try easy; cbn in *; [congruence|now apply IH]. }
    destruct (forall2_nth_error _ _ _ k _ F C) as (cwf & Hc & D). exists cwf. split; [exact Hc|]. unfold deconvolve_one in D. cbn [fst snd] in D. unfold deconvolved_wf. destruct (butter (pm_clean (dq_row d))) as [[b0 b1] a1].
    eexists. split; [|exact D]. clear D. set (ped := mean0 _). assert (P : (ped == (sumF inject_Z (filter (fun x => negb (x =? 0)%Z) (firstn n w)) / inject_Z (Z.of_nat (length (filter (fun x => negb (x =? 0)%Z) (firstn n w))))))%Q) by apply mean0_is. revert P. cbv zeta. generalize (sumF inject_Z (filter (fun x => negb (x =? 0)%Z) (firstn n w)) / inject_Z (Z.of_nat (length (filter (fun x => negb (x =? 0)%Z) (firstn n w)))))%Q. clearbody ped. intros b P.
    induction w as [|z w IH] using rev_ind; [constructor|]. clear -P. induction (w ++ [z]) as [|x l IH]; constructor; [rewrite P; reflexivity|exact IH].
  Qed.

  Lemma peak_data_ok h s l d0 : Forall (fun x => exists pks, channel_peaks h s (snd x) = Ok pks) l -> NoDup (map fst l) -> (forall x, In x (map fst l) -> ~ In x (map fst d0)) ->
    exists d, peak_data h s l d0 = Ok (d0 ++ d) /\ Forall2 (fun x y => fst y = fst x /\ channel_peaks h s (snd x) = Ok (snd y)) l d.
  Proof using.
    revert d0. induction l as [|[i cwf] l IH]; intros d0 F N D; [exists []; split; [cbn; now rewrite app_nil_r|constructor]|]. inversion F as [|? ? (pks & E) F']; subst. inversion N as [|? ? Ni N']; subst. cbn [peak_data]. cbn [snd] in E. rewrite E. cbn [rbind].
    rewrite set_new by (apply D; now left). destruct (IH (d0 ++ [(i, pks)]) F' N') as (d & Ed & Fd).
    { intros x Hx. rewrite map_app, in_app_iff. intros [H|[H|[]]]; [apply (D x); [now right|assumption]|]. cbn in H. subst x. contradiction. }
    exists ((i, pks) :: d). rewrite Ed, <- app_assoc. split; [reflexivity|]. constructor; [split; [reflexivity|exact E]|exact Fd].
  Qed.
  Lemma peak_data_fails h s l d0 : (exists x, In x l /\ channel_peaks h s (snd x) = Err IndexError) -> (forall x e, In x l -> channel_peaks h s (snd x) = Err e -> e = IndexError) -> peak_data h s l d0 = Err IndexError.
  Proof using.
    revert d0. induction l as [|[i cwf] l IH]; intros d0 (x & Hx & Ex) O; [easy|]. cbn [peak_data]. destruct (channel_peaks h s cwf) as [pks|e] eqn:E; cbn [rbind].
    - destruct Hx as [<-|Hx]; [cbn in Ex; congruence|]. apply IH; [exists x; now split|]. intros y e Hy. apply O. now right.
    - f_equal. apply (O (i, cwf) e); [now left|exact E].
  Qed.
End Proofs.

(** an event passes when enough candidates of the selected PMTs are within the limits: so it is if the selected channels are those of the
    first PMTs of the database, in the same order, all PMTs are in use and each of the selected ones has some signal *)
Theorem C98_decision butter sqrt db c ns rwfs :
  good_trigger db c -> good_waveforms db (tg_n_baseline c) ns rwfs -> Forall (fun d => pm_active (dq_row d) = true) db ->
  tg_channels c <> [] -> tg_channels c = firstn (length (tg_channels c)) (map dq_channel db) ->
  (forall k d w cwf, k < length (tg_channels c) -> nth_error db k = Some d -> nth_error rwfs k = Some w -> deconvolved_wf butter sqrt (tg_n_baseline c) (dq_row d) w cwf -> has_signal c cwf) ->
  exists cwfs pkss fires n,
    trigger_decision butter sqrt db (Some (true, c)) rwfs = Ok fires /\
    (forall i ch, nth_error (tg_channels c) i = Some ch -> exists k d w cwf,
       nth_error db k = Some d /\ dq_channel d = ch /\ nth_error rwfs k = Some w /\ nth_error cwfs i = Some cwf /\ deconvolved_wf butter sqrt (tg_n_baseline c) (dq_row d) w cwf) /\
    length cwfs = length (tg_channels c) /\ Forall2 (candidates c) cwfs pkss /\
    how_many (triggers (tg_conf c)) (concat pkss) n /\
    (fires = true <-> (1 <= tc_min_channels (tg_conf c) <= Z.of_nat n)%Z).
Proof.
  intros G W Act Ne Pre Sig. destruct (accepted butter sqrt db c G) as (f & Ef & Ee). unfold trigger_decision. cbn [option_map fst snd]. rewrite Ef. cbn [rbind]. rewrite Ee. cbn [rbind].
  set (ids := map (fun ch => position ch (map dq_channel db)) (tg_channels c)).
  assert (Hids : ids <> []) by (unfold ids; destruct (tg_channels c); [contradiction|discriminate]).
  destruct (all_deconvolved butter sqrt db (tg_n_baseline c) ns rwfs ids Hids Act W) as (cwfs & E & L & P). rewrite E. cbn [rbind].
  set (k := length (tg_channels c)) in *.
  assert (Kdb : k <= length db). { assert (length (tg_channels c) = length (firstn k (map dq_channel db))) by congruence. rewrite firstn_length, map_length in H. fold k in H. lia. }
  assert (Nch : forall i ch, nth_error (tg_channels c) i = Some ch -> i < k /\ nth_error (map dq_channel db) i = Some ch).
  { intros i ch H. assert (i < k) by (apply nth_error_Some; congruence). split; [assumption|]. rewrite Pre in H. rewrite <- (firstn_skipn k (map dq_channel db)). rewrite nth_error_app1; [exact H|]. rewrite firstn_length, map_length. lia. }
  assert (Eids : ids = seq 0 k).
  { apply nth_error_same. intros i. unfold ids. rewrite nth_error_map. destruct (nth_error (tg_channels c) i) as [ch|] eqn:H; cbn [option_map].
    - destruct (Nch i ch H) as [Hi H']. rewrite (position_first _ _ _ (gt_db _ _ G) H'). symmetry. rewrite (nth_error_nth' _ 0) by now rewrite seq_length. now rewrite seq_nth.
    - symmetry. apply nth_error_None. rewrite seq_length. now apply nth_error_None in H. }
  rewrite Eids. set (cs := firstn k cwfs). assert (Lcs : length cs = k) by (unfold cs; rewrite firstn_length; lia).
  assert (Ecomb : combine (seq 0 k) cwfs = combine (seq 0 k) cs). { unfold cs. rewrite <- (seq_length k 0) at 3. generalize (seq 0 k) as l. clear. intros l. revert cwfs. induction l as [|x l IH]; intros [|y cwfs]; try reflexivity. cbn. now rewrite <- IH. }
  rewrite Ecomb.
  assert (Own : forall i ch, nth_error (tg_channels c) i = Some ch -> exists d w cwf, nth_error db i = Some d /\ dq_channel d = ch /\ nth_error rwfs i = Some w /\ nth_error cs i = Some cwf /\ deconvolved_wf butter sqrt (tg_n_baseline c) (dq_row d) w cwf).
  { intros i ch H. destruct (Nch i ch H) as [Hi H']. rewrite nth_error_map in H'. destruct (nth_error db i) as [d|] eqn:Hd; [|discriminate]. cbn in H'. injection H' as H'. destruct (nth_error rwfs i) as [w|] eqn:Hw; [|exfalso; apply nth_error_None in Hw; rewrite (gw_len _ _ _ _ W) in Hw; lia].
    destruct (P i d w Hd Hw) as (cwf & Hc & D). exists d, w, cwf. repeat (split; [assumption || reflexivity|]). split; [|exact D]. unfold cs. rewrite <- Hc. rewrite <- (firstn_skipn k cwfs) at 2. rewrite nth_error_app1; [reflexivity|]. fold cs. lia. }
  assert (Hear : forall i cwf, nth_error cs i = Some cwf -> has_signal c cwf).
  { intros i cwf Hc. assert (Hi : i < k) by (rewrite <- Lcs; apply nth_error_Some; congruence). destruct (nth_error (tg_channels c) i) as [ch|] eqn:Hch; [|exfalso; apply nth_error_None in Hch; fold k in Hch; lia].
    destruct (Own i ch Hch) as (d & w & cwf' & Hd & _ & Hw & Hc' & D). assert (cwf' = cwf) by congruence. subst cwf'. exact (Sig i d w cwf Hi Hd Hw D). }
  match goal with |- context [peak_data ?h ?s ?l []] => destruct (peak_data_ok h s l []) as (d & Ed & Fd) end.
  { apply Forall_forall. intros [i cwf] Hx. apply in_combine_r in Hx. destruct (In_nth_error _ _ Hx) as (j & Hj). destruct (heard c cwf (Hear j cwf Hj) (gt_time _ _ G)) as (pks & Ep & _). now exists pks. }
  { assert (Ef' : forall (l : list nat) (m : list (list Q)), length l = length m -> map fst (combine l m) = l) by (induction l as [|x l IH]; intros [|y m] HL; try easy; cbn in *; f_equal; apply IH; lia). rewrite Ef' by (rewrite seq_length; congruence). apply seq_NoDup. }
  { easy. }
  rewrite Ed. cbn [rbind app]. exists cs, (map snd d), (f d). 
  assert (Cand : Forall2 (candidates c) cs (map snd d)).
  { assert (Hs : Forall (has_signal c) cs) by (apply Forall_forall; intros x Hx; destruct (In_nth_error _ _ Hx) as (j & Hj); now apply (Hear j)). clear -Fd Hs Lcs G. clearbody cs. clearbody k. revert Fd Lcs. generalize 0 at 1. revert d k Hs. induction cs as [|cwf cs IH]; intros d k Hs st Fd Lcs.
    - destruct k; [|easy]. inversion Fd; subst. constructor.
    - destruct k as [|k]; [easy|]. cbn [seq combine] in Fd. inversion Fd as [|? y ? d' [_ Ey] Fd']; subst. inversion Hs; subst. cbn [map]. constructor; [|apply (IH d' k) with (n := S st); try assumption; cbn in *; lia].
      cbn [snd] in Ey. destruct (heard c cwf H1 (gt_time _ _ G)) as (pks & Ep & Cp). congruence. }
  assert (Hm : exists n, how_many (triggers (tg_conf c)) (flat_map snd d) n) by (eexists; now apply (how_many_filter _ _ (trig_spec (tg_conf c)))).
  destruct Hm as (n & Hm). exists n. split; [reflexivity|]. split; [intros i ch H; destruct (Own i ch H) as (d' & w & cwf & Hx); exists i, d', w, cwf; exact Hx|]. split; [exact Lcs|]. split; [exact Cand|].
  rewrite flat_map_concat_map in Hm. split; [exact Hm|]. apply (C37_counts_peaks (tg_conf c) f d n Ef). now rewrite flat_map_concat_map.
Qed.
Print Assumptions C98_decision.

(** In general the selected channels do not matter, only how many they are: the PMTs looked at are the first ones of the database *)
Theorem C98_channels_refuted butter sqrt db c c' rwfs :
  good_trigger db c -> good_trigger db c' ->
  c' = {| tg_channels := tg_channels c'; tg_conf := tg_conf c; tg_n_baseline := tg_n_baseline c; tg_time := tg_time c; tg_length := tg_length c; tg_stride := tg_stride c; tg_rebin := tg_rebin c |} ->
  NoDup (tg_channels c) -> NoDup (tg_channels c') -> length (tg_channels c) = length (tg_channels c') ->
  trigger_decision butter sqrt db (Some (true, c)) rwfs = trigger_decision butter sqrt db (Some (true, c')) rwfs.
Proof.
  intros G G' Ec N N' L. destruct (accepted butter sqrt db c G) as (f & Ef & Ee). destruct (accepted butter sqrt db c' G') as (f' & Ef' & Ee').
  unfold trigger_decision. cbn [option_map fst snd]. rewrite Ef, Ef'. cbn [rbind]. rewrite Ee, Ee'. cbn [rbind].
  assert (Et : tg_conf c' = tg_conf c) by now rewrite Ec. assert (Eb : tg_n_baseline c' = tg_n_baseline c) by now rewrite Ec. assert (E1 : tg_time c' = tg_time c) by now rewrite Ec. assert (E2 : tg_length c' = tg_length c) by now rewrite Ec. assert (E3 : tg_stride c' = tg_stride c) by now rewrite Ec. assert (E4 : tg_rebin c' = tg_rebin c) by now rewrite Ec.
  rewrite Et, Eb, E1, E2, E3, E4 in *. assert (f' = f) by congruence. subst f'. clear Ec.
  set (ids := map _ (tg_channels c)). set (ids' := map _ (tg_channels c')). assert (Li : length ids = length ids') by (unfold ids, ids'; now rewrite !map_length).
  replace (masked_rows ids' db) with (masked_rows ids db) by (unfold masked_rows; now rewrite Li). destruct (deconv_pmt _ _ _ _ _) as [cwfs|]; [|reflexivity]. cbn [rbind].
  assert (In_db : forall x, good_trigger db x -> forall ch, In ch (tg_channels x) -> In ch (map dq_channel db)) by (intros x Gx ch Hch; destruct (gt_channels _ _ Gx ch Hch) as (d & Hd & <- & _); now apply in_map).
  assert (Ni : NoDup ids). { unfold ids. clear -N G In_db. specialize (In_db c G). induction N as [|a l Ha N IH]; [constructor|]. cbn. constructor; [|apply IH; intros; apply In_db; now right]. intros H. apply in_map_iff in H. destruct H as (b & E & Hb). apply position_inj in E; [now subst|apply In_db; now right|apply In_db; now left]. }
  assert (Ni' : NoDup ids'). { unfold ids'. clear -N' G' In_db. specialize (In_db c' G'). induction N' as [|a l Ha N IH]; [constructor|]. cbn. constructor; [|apply IH; intros; apply In_db; now right]. intros H. apply in_map_iff in H. destruct H as (b & E & Hb). apply position_inj in E; [now subst|apply In_db; now right|apply In_db; now left]. }
  match goal with |- rbind (peak_data ?h ?s _ _) _ = _ => set (hh := h); set (ss := s) end. clearbody ids ids'.
  assert (Gen : forall d0 d0', Forall2 (fun x y => snd x = snd y) d0 d0' -> (forall x, In x ids -> ~ In x (map fst d0)) -> (forall x, In x ids' -> ~ In x (map fst d0')) ->
    match peak_data hh ss (combine ids cwfs) d0, peak_data hh ss (combine ids' cwfs) d0' with Ok d, Ok d' => Forall2 (fun x y => snd x = snd y) d d' | Err e, Err e' => e = e' | _, _ => False end).
  { clear -Ni Ni' Li. revert ids' cwfs Li Ni'. induction Ni as [|a ids Ha Ni IH]; intros [|a' ids'] [|w cwfs] Li Ni' d0 d0' F D D'; try easy. cbn [combine peak_data]. destruct (channel_peaks hh ss w) as [pks|e]; [|reflexivity]. cbn [rbind]. inversion Ni' as [|? ? Ha' Ni'']; subst.
    rewrite set_new by (apply D; now left). rewrite set_new by (apply D'; now left). apply IH; [cbn in Li; lia|assumption|apply Forall2_app; [exact F|constructor; [reflexivity|constructor]]|..].
    - intros x Hx. rewrite map_app, in_app_iff. intros [H|[H|[]]]; [apply (D x); [now right|assumption]|]. cbn in H. now subst.
    - intros x Hx. rewrite map_app, in_app_iff. intros [H|[H|[]]]; [apply (D' x); [now right|assumption]|]. cbn in H. now subst. }
  specialize (Gen [] [] (Forall2_nil _) ltac:(easy) ltac:(easy)). destruct (peak_data hh ss (combine ids cwfs) []) as [d|e], (peak_data hh ss (combine ids' cwfs) []) as [d'|e']; try easy; [|now subst].
  cbn [rbind]. f_equal. assert (Ft : flat_map snd d = flat_map snd d') by (clear -Gen; induction Gen as [|[a x] [a' y] d d' E F IH]; [reflexivity|]; cbn in *; congruence).
  assert (Hm : exists n, how_many (triggers (tg_conf c)) (flat_map snd d) n) by (eexists; now apply (how_many_filter _ _ (trig_spec (tg_conf c)))). destruct Hm as (n & Hm).
  pose proof (C37_counts_peaks (tg_conf c) f d n Ef Hm) as A. rewrite Ft in Hm. pose proof (C37_counts_peaks (tg_conf c) f d' n Ef Hm) as B. destruct (f d), (f d'); try reflexivity; exfalso; intuition discriminate.
Qed.
Print Assumptions C98_channels_refuted.

(** One of these PMTs without a sample above the least height stops diomira, instead of being a PMT that does not fire *)
Theorem C98_silent_refuted butter sqrt db c ns rwfs k d w :
  good_trigger db c -> good_waveforms db (tg_n_baseline c) ns rwfs -> Forall (fun d => pm_active (dq_row d) = true) db ->
  k < length (tg_channels c) -> nth_error db k = Some d -> nth_error rwfs k = Some w ->
  (forall cwf, deconvolved_wf butter sqrt (tg_n_baseline c) (dq_row d) w cwf -> ~ has_signal c cwf) ->
  trigger_decision butter sqrt db (Some (true, c)) rwfs = Err IndexError.
Proof.
  intros G W Act Hk Hd Hw Sil. destruct (accepted butter sqrt db c G) as (f & Ef & Ee). unfold trigger_decision. cbn [option_map fst snd]. rewrite Ef. cbn [rbind]. rewrite Ee. cbn [rbind].
  set (ids := map (fun ch => position ch (map dq_channel db)) (tg_channels c)). assert (Li : length ids = length (tg_channels c)) by apply map_length.
  assert (Hids : ids <> []) by (intros E; rewrite E in Li; cbn in Li; lia).
  destruct (all_deconvolved butter sqrt db (tg_n_baseline c) ns rwfs ids Hids Act W) as (cwfs & E & L & P). rewrite E. cbn [rbind]. destruct (P k d w Hd Hw) as (cwf & Hc & D).
  rewrite peak_data_fails; [reflexivity|..].
  - exists (nth k ids 0, cwf). split; [|cbn [snd]; apply silent, (Sil cwf D)]. assert (K : nth_error (combine ids cwfs) k = Some (nth k ids 0, cwf)); [|now apply nth_error_In in K].
    clear -Hc Hk Li. rewrite <- Li in Hk. clear Li. revert cwfs k Hc Hk. induction ids as [|x ids IH]; intros [|y cwfs] [|k] Hc Hk; cbn in *; try easy; try lia; [congruence|]. apply IH; [assumption|lia].
  - intros [i x] e _ Ex. cbn [snd] in Ex. assert (Dec : has_signal c x \/ ~ has_signal c x).
    { destruct (indices_above_threshold x (fst (tc_height (tg_conf c)))) as [|j l] eqn:Ei.
      - right. intros (j & Hj & Hs). assert (In j (indices_above_threshold x (fst (tc_height (tg_conf c))))) as I; [|rewrite Ei in I; easy]. unfold indices_above_threshold. apply in_np_where with (d := 0%Q). split; [assumption|]. destruct (Qltb_spec (fst (tc_height (tg_conf c))) (nth j x 0%Q)); [reflexivity|lra].
      - left. assert (I : In j (indices_above_threshold x (fst (tc_height (tg_conf c))))) by (rewrite Ei; now left). unfold indices_above_threshold in I. apply in_np_where with (d := 0%Q) in I. destruct I as [I1 I2]. exists j. split; [assumption|]. destruct (Qltb_spec (fst (tc_height (tg_conf c))) (nth j x 0%Q)); [assumption|discriminate]. }
    destruct Dec as [S|S]; [destruct (heard c x S (gt_time _ _ G)) as (pks & Ep & _); congruence|rewrite (silent c _ x S) in Ex; congruence].
Qed.
Print Assumptions C98_silent_refuted.

(** a PMT of the database that is not in use stops diomira too *)
Theorem C98_masked_refuted butter sqrt db c rwfs d :
  good_trigger db c -> tg_channels c <> [] -> length rwfs = length db -> In d db -> pm_active (dq_row d) = false ->
  trigger_decision butter sqrt db (Some (true, c)) rwfs = Err AssertionError.
Proof.
  intros G Ne L Hd Ha. destruct (accepted butter sqrt db c G) as (f & Ef & Ee). unfold trigger_decision. cbn [option_map fst snd]. rewrite Ef. cbn [rbind]. rewrite Ee. cbn [rbind].
  unfold masked_rows. rewrite map_length. destruct (Nat.eqb_spec (length (tg_channels c)) 0); [destruct (tg_channels c); easy|]. unfold deconv_pmt.
  assert (Lt : length (filter pm_active (map dq_row db)) < length db).
  { clear -Hd Ha. assert (A : forall l, length (filter pm_active (map dq_row l)) <= length l) by (induction l as [|x l IH]; cbn; [lia|destruct (pm_active (dq_row x)); cbn; lia]).
    induction db as [|x l IH]; [easy|]. cbn. destruct Hd as [-> |Hd]; [rewrite Ha; specialize (A l); lia|]. specialize (IH Hd). destruct (pm_active (dq_row x)); cbn; lia. }
  destruct (Nat.eqb_spec (length rwfs) (length (filter pm_active (map dq_row db)))); [lia|]. reflexivity.
Qed.
Print Assumptions C98_masked_refuted.

(** without a trigger all events pass; a channel that is not the one of a PMT in use, and another type of trigger, are refused *)
Theorem C98_configuration butter sqrt db rwfs :
  trigger_decision butter sqrt db None rwfs = Ok true /\
  (forall c, trigger_decision butter sqrt db (Some (false, c)) rwfs = Err ValueError) /\
  (forall c ch, NoDup (map dq_channel db) -> (fst (tg_time c) <= snd (tg_time c))%Q -> (fst (tg_length c) <= snd (tg_length c))%Q ->
     In ch (tg_channels c) -> (forall d, In d db -> dq_channel d = ch -> pm_active (dq_row d) = false) ->
     emulate_trigger butter sqrt db c = Err ValueError).
Proof.
  split; [reflexivity|]. split; [reflexivity|]. intros c ch N T L Hc Hd. unfold emulate_trigger, channel_to_IC. rewrite (proj2 (distinct_spec _) N). cbn [rbind].
  unfold mk_minmax. rewrite (proj2 (Qle_bool_iff _ _) T), (proj2 (Qle_bool_iff _ _) L). cbn [rbind].
  match goal with |- context [if ?b then Err ValueError else _] => assert (E : b = true); [|rewrite E; reflexivity] end.
  apply existsb_exists. exists ch. split; [assumption|]. apply negb_true_iff. destruct (existsb _ db) eqn:E; [|reflexivity]. apply existsb_exists in E. destruct E as (d & Hin & E). apply andb_true_iff in E. destruct E as [E1 E2]. apply Z.eqb_eq in E1. rewrite (Hd d Hin E1) in E2. discriminate.
Qed.
Print Assumptions C98_configuration.

(** three PMTs with the light of an S2 in the first two *)
Definition xrow i ch b := {| dq_row := {| pm_id := i; pm_active := b; pm_clean := 1; pm_blr := 1 # 2; pm_gain := 2 |}; dq_channel := ch |}.
Definition xdb := [xrow 3 7 true; xrow 5 2 true; xrow 8 9 true].
Definition xconf chs := {| tg_channels := chs; tg_conf := {| tc_min_channels := 2; tc_ratio := 1; tc_height := (2, 100)%Q; tc_charge := (5, 1000)%Q; tc_width := (50, 500)%Q |};
  tg_n_baseline := 1; tg_time := (1000, 10000)%Q; tg_length := (2, 100)%Q; tg_stride := 2; tg_rebin := 1 |}.
Definition xrwfs := [pulses 8 3; pulses 1 3; pulses 0 0].

Lemma lfilter_eq b0 b1 a1 l l' : Forall2 Qeq l l' -> forall px py px' py', (px == px')%Q -> (py == py')%Q -> Forall2 Qeq (lfilter_from b0 b1 a1 px py l) (lfilter_from b0 b1 a1 px' py' l').
Proof. induction 1 as [|x y l l' E F IH]; intros px py px' py' Ex Ey; [constructor|]. cbn [lfilter_from]. cbv zeta. constructor; [rewrite E, Ex, Ey; reflexivity|]. apply IH; [exact E|]. rewrite E, Ex, Ey. reflexivity. Qed.
Lemma Qltb_eq a b a' b' : (a == a')%Q -> (b == b')%Q -> Qltb a b = Qltb a' b'.
Proof. intros E F. destruct (Qltb_spec a b), (Qltb_spec a' b'); try reflexivity; exfalso; lra. Qed.
Lemma next_eq coef t t' a x x' acum acum' : (t == t')%Q -> (x == x')%Q -> (acum == acum')%Q -> (next_acum coef t a x acum == next_acum coef t' a x' acum')%Q.
Proof.
  intros Et Ex Ea. unfold next_acum. rewrite (Qltb_eq x t x' t' Ex Et), (Qltb_eq acum a acum' a Ea ltac:(reflexivity)). destruct (_ && _)%bool; [|rewrite Ex, Ea; reflexivity].
  rewrite (Qltb_eq 1 acum 1 acum' ltac:(reflexivity) Ea). destruct (Qltb 1 acum'); [rewrite Ea|]; reflexivity.
Qed.
Lemma recover_eq coef t t' a l l' : (t == t')%Q -> Forall2 Qeq l l' -> forall acum acum', (acum == acum')%Q -> Forall2 Qeq (recover coef t a acum l) (recover coef t' a acum' l').
Proof. intros Et. induction 1 as [|x y l l' E F IH]; intros acum acum' Ea; [constructor|]. cbn [recover]. constructor; [rewrite E, Ea; reflexivity|]. apply IH. now apply next_eq. Qed.
Lemma squares_eq n l l' : Forall2 Qeq l l' -> (sumQ (map (fun x => x * x) (firstn n l)) == sumQ (map (fun x => x * x) (firstn n l')))%Q.
Proof. intros F. revert n. induction F as [|x y l l' E F IH]; intros [|n]; try reflexivity. cbn. unfold sumQ in IH. rewrite IH, E. reflexivity. Qed.
Lemma deconvolve_eq b0 b1 a1 coef thr wf wf' c : Forall2 Qeq wf wf' -> deconvolve_signal b0 b1 a1 ex_sqrt coef thr wf = Ok c -> exists c', deconvolve_signal b0 b1 a1 ex_sqrt coef thr wf' = Ok c' /\ Forall2 Qeq c c'.
Proof.
  intros F. unfold deconvolve_signal. rewrite (Forall2_len _ _ _ F). destruct (Qeqb coef 0); [easy|]. destruct (_ <? _); [easy|].
  assert (L : Forall2 Qeq (lfilter b0 b1 a1 wf) (lfilter b0 b1 a1 wf')) by (unfold lfilter; destruct F as [|x y l l' Exy F]; [constructor|]; constructor; [rewrite Exy; reflexivity|]; apply lfilter_eq; [exact F|exact Exy|rewrite Exy; reflexivity]).
  inversion L as [|x y l l' E M]; [easy|]. intros K. injection K as <-. eexists. split; [reflexivity|]. constructor; [exact E|]. apply recover_eq; [|exact M|reflexivity]. unfold trigger_line, ex_sqrt. rewrite (squares_eq n_noise _ _ F). reflexivity.
Qed.
(** the waveform of the PMT, whatever the fractions it is written with *)
Lemma xwave d w cwf c0 : deconvolved_wf ex_butter ex_sqrt 1 (dq_row d) w cwf -> hd 0%Z w = 10%Z -> 0 < length w -> deconvolve_signal 1 0 0 ex_sqrt (pm_blr (dq_row d)) 5 (map (fun z => 10 - inject_Z z)%Q w) = Ok c0 -> Forall2 Qeq cwf c0.
Proof.
  unfold deconvolved_wf, ex_butter. intros (inv & F & D) H0 L E. destruct w as [|z0 w]; [cbn in L; lia|]. cbn in H0. subst z0.
  assert (B : (sumF inject_Z (filter (fun x => negb (x =? 0)%Z) (firstn 1 (10%Z :: w))) / inject_Z (Z.of_nat (length (filter (fun x => negb (x =? 0)%Z) (firstn 1 (10%Z :: w))))) == 10)%Q) by reflexivity. revert F. generalize dependent (sumF inject_Z (filter (fun x => negb (x =? 0)%Z) (firstn 1 (10%Z :: w))) / inject_Z (Z.of_nat (length (filter (fun x => negb (x =? 0)%Z) (firstn 1 (10%Z :: w))))))%Q. intros b B F.
  assert (F' : Forall2 Qeq inv (map (fun z => 10 - inject_Z z)%Q (10%Z :: w))). { clear -F B. induction F as [|z y l l' E F IH]; constructor; [rewrite E, B; reflexivity|exact IH]. }
  destruct (deconvolve_eq _ _ _ _ _ _ _ _ F' D) as (c' & E' & R). congruence.
Qed.
Definition loud (h : Q) (r : result (list Q)) : bool := match r with Ok l => existsb (Qltb h) l | Err _ => false end.
Definition quiet_wf (h : Q) (r : result (list Q)) : bool := match r with Ok l => negb (existsb (Qltb h) l) | Err _ => false end.
Lemma loud_signal c d w : hd 0%Z w = 10%Z -> 0 < length w -> loud (fst (tc_height (tg_conf c))) (deconvolve_signal 1 0 0 ex_sqrt (pm_blr (dq_row d)) 5 (map (fun z => 10 - inject_Z z)%Q w)) = true ->
  forall cwf, deconvolved_wf ex_butter ex_sqrt 1 (dq_row d) w cwf -> has_signal c cwf.
Proof.
  intros H0 L Lo cwf D. destruct (deconvolve_signal _ _ _ _ _ _ _) as [c0|] eqn:E; [|easy]. pose proof (xwave d w cwf c0 D H0 L E) as F. cbn in Lo. apply existsb_exists in Lo. destruct Lo as (x & Hx & Hl). destruct (In_nth_error _ _ Hx) as (k & Hk).
  destruct (forall2_nth_error_r _ _ _ k _ F Hk) as (y & Hy & Eq). exists k. split; [apply nth_error_Some; congruence|]. rewrite (nth_error_nth _ _ 0%Q Hy). destruct (Qltb_spec (fst (tc_height (tg_conf c))) x) as [Lt|]; [|easy]. clear -Lt Eq. lra.
Qed.
Lemma quiet_signal c d w : hd 0%Z w = 10%Z -> 0 < length w -> quiet_wf (fst (tc_height (tg_conf c))) (deconvolve_signal 1 0 0 ex_sqrt (pm_blr (dq_row d)) 5 (map (fun z => 10 - inject_Z z)%Q w)) = true ->
  forall cwf, deconvolved_wf ex_butter ex_sqrt 1 (dq_row d) w cwf -> ~ has_signal c cwf.
Proof.
  intros H0 L Lo cwf D (k & Hk & Hs). destruct (deconvolve_signal _ _ _ _ _ _ _) as [c0|] eqn:E; [|easy]. pose proof (xwave d w cwf c0 D H0 L E) as F. cbn in Lo. apply negb_true_iff in Lo.
  destruct (nth_error cwf k) as [y|] eqn:Hy; [|apply nth_error_None in Hy; lia]. destruct (forall2_nth_error _ _ _ k _ F Hy) as (x & Hx & Eq). rewrite (nth_error_nth _ _ 0%Q Hy) in Hs.
  assert (existsb (Qltb (fst (tc_height (tg_conf c)))) c0 = true); [|congruence]. apply existsb_exists. exists x. split; [now apply nth_error_In in Hx|]. destruct (Qltb_spec (fst (tc_height (tg_conf c))) x) as [|N]; [reflexivity|]. exfalso. clear -N Eq Hs. lra.
Qed.

Lemma xgood chs : (forall ch, In ch chs -> In ch [7; 2; 9]%Z) -> good_trigger xdb (xconf chs).
Proof.
  intros H. split; cbn; try lra.
  - repeat constructor; cbn; intuition discriminate.
  - intros ch Hc. destruct (H ch Hc) as [<-|[<-|[<-|[]]]]; [exists (xrow 3 7 true)|exists (xrow 5 2 true)|exists (xrow 8 9 true)]; cbn; tauto.
Qed.
Lemma xgoodw : good_waveforms xdb 1 400 xrwfs.
Proof. split; try reflexivity; try (cbn; lia); [repeat constructor; reflexivity|]. intros d [<-|[<-|[<-|[]]]]; easy. Qed.
(** the event passes with the channels of the first two PMTs, and also with the second and the third, which has no light *)
Example C98_ex : trigger_decision ex_butter ex_sqrt xdb (Some (true, xconf [7; 2]%Z)) xrwfs = Ok true /\ trigger_decision ex_butter ex_sqrt xdb (Some (true, xconf [2; 9]%Z)) xrwfs = Ok true /\
  trigger_decision ex_butter ex_sqrt xdb (Some (true, xconf [7; 2; 9]%Z)) xrwfs = Err IndexError /\
  (forall k d w cwf, k < length (tg_channels (xconf [7; 2]%Z)) -> nth_error xdb k = Some d -> nth_error xrwfs k = Some w -> deconvolved_wf ex_butter ex_sqrt 1 (dq_row d) w cwf -> has_signal (xconf [7; 2]%Z) cwf) /\
  (forall cwf, deconvolved_wf ex_butter ex_sqrt 1 (dq_row (xrow 8 9 true)) (pulses 0 0) cwf -> ~ has_signal (xconf [7; 2; 9]%Z) cwf).
Proof.
  assert (S : forall k d w cwf, k < length (tg_channels (xconf [7; 2]%Z)) -> nth_error xdb k = Some d -> nth_error xrwfs k = Some w -> deconvolved_wf ex_butter ex_sqrt 1 (dq_row d) w cwf -> has_signal (xconf [7; 2]%Z) cwf).
  { intros [|[|k]] d w cwf Hk Hd Hw; cbn in Hk, Hd, Hw; try lia; injection Hd as <-; injection Hw as <-; apply loud_signal; try reflexivity; try (cbn; lia); vm_compute; reflexivity. }
  assert (Z : forall cwf, deconvolved_wf ex_butter ex_sqrt 1 (dq_row (xrow 8 9 true)) (pulses 0 0) cwf -> ~ has_signal (xconf [7; 2; 9]%Z) cwf) by (apply quiet_signal; try reflexivity; try (cbn; lia); vm_compute; reflexivity).
  assert (A : trigger_decision ex_butter ex_sqrt xdb (Some (true, xconf [7; 2]%Z)) xrwfs = Ok true) by (vm_compute; reflexivity).
  split; [exact A|]. split; [|split; [|split; [exact S|exact Z]]].
  - rewrite <- A. apply C98_channels_refuted; try apply xgood; try reflexivity; try (intros ch; cbn; tauto); repeat constructor; cbn; intuition discriminate.
  - apply (C98_silent_refuted _ _ xdb (xconf [7; 2; 9]%Z) 400 xrwfs 2 (xrow 8 9 true) (pulses 0 0)).
    + apply xgood. intros ch. cbn. tauto.
    + exact xgoodw.
    + repeat constructor.
    + cbn. lia.
    + reflexivity.
    + reflexivity.
    + exact Z.
Qed.
Example C98_masked_ex : trigger_decision ex_butter ex_sqrt (xrow 1 4 false :: xdb) (Some (true, xconf [7]%Z)) (pulses 0 0 :: xrwfs) = Err AssertionError.
Proof.
  apply (C98_masked_refuted _ _ _ _ _ (xrow 1 4 false)); try reflexivity; try easy; [|now left]. split; cbn; try lra; [repeat constructor; cbn; intuition discriminate|]. intros ch [<-|[]]. exists (xrow 3 7 true). cbn; tauto.
Qed.
