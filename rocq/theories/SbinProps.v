(** C89: the sampling periods of simulated sensors *)
From Verif Require Import Base ReadModel SbinModel SbinSpec.
From Coq Require Import String Ascii.
Local Open Scope nat_scope.
Local Open Scope string_scope.
Arguments String.eqb : simpl never.
Arguments Ascii.eqb : simpl never.

Lemma starts_spec p s r : starts p s = Some r <-> s = p ++ r.
Proof.
  revert s; induction p as [|a p IH]; intros s; cbn; [split; congruence|]. destruct s as [|b s]; [split; discriminate|].
  destruct (Ascii.eqb_spec a b) as [->|N]; [rewrite IH; split; congruence|split; [discriminate|congruence]].
Qed.
Lemma after_some p s r : after p s = Some r -> exists a, s = a ++ p ++ r.
Proof.
  induction s as [|c s IH]; cbn.
  - destruct (starts p "") eqn:E; [|discriminate]. intros [= ->]. apply starts_spec in E. now exists "".
  - destruct (starts p (String c s)) eqn:E; [intros [= ->]; apply starts_spec in E; now exists ""|]. intros H. destruct (IH H) as [a ->]. now exists (String c a).
Qed.
Lemma slen_app u v : String.length (u ++ v) = String.length u + String.length v.
Proof. induction u; cbn; [reflexivity|now rewrite IHu]. Qed.
Lemma after_first p a b : exists r c, after p (a ++ p ++ b) = Some r /\ r = c ++ b.
Proof.
  induction a as [|x a IH].
  - change ("" ++ p ++ b) with (p ++ b). exists b, "". split; [|reflexivity]. assert (E : starts p (p ++ b) = Some b) by now apply starts_spec. destruct (p ++ b) eqn:Es; cbn [after]; now rewrite E.
  - cbn. destruct (starts p (String x (a ++ p ++ b))) eqn:E.
    + exists s. apply starts_spec in E. destruct IH as (r0 & c0 & H0 & ->).
      assert (K : exists c, s = c ++ b); [|destruct K as [c ->]; now exists c].
      assert (L : String.length b <= String.length s). { apply (f_equal String.length) in E. cbn in E. rewrite !slen_app in E. lia. }
      clear -E L. change (String x (a ++ p ++ b)) with (String x a ++ (p ++ b)) in E.
      assert (SA : forall u v w : string, (u ++ v) ++ w = u ++ v ++ w) by (induction u; intros; cbn; [reflexivity|now rewrite IHu]).
      rewrite <- SA in E. revert L E. generalize (String x a ++ p) as u. generalize p as v. clear.
      induction v as [|c v IH]; intros u L E; cbn in E; [now exists u|]. destruct u as [|d u]; cbn in E.
      * exfalso. apply (f_equal String.length) in E. cbn in E. rewrite slen_app in E. lia.
      * injection E as _ E. now apply (IH u).
    + exact IH.
Qed.
Lemma app_s (u v w : string) : (u ++ v) ++ w = u ++ v ++ w.
Proof. induction u; cbn; [reflexivity|now rewrite IHu]. Qed.
Lemma contains_spec p s : contains p s = true <-> within p s.
Proof.
  unfold contains, within. split.
  - destruct (after p s) eqn:E; [|discriminate]. intros _. destruct (after_some p s s0 E) as [a ->]. now exists a, s0.
  - intros (a & b & ->). destruct (after_first p a b) as (r & c & -> & _). reflexivity.
Qed.
Lemma contains_false p s : contains p s = false <-> ~ within p s.
Proof. rewrite <- contains_spec. now destruct (contains p s). Qed.

(** strip *)
Lemma lstrip_all set l m : (forall c, In c l -> In c set) -> lstrip set (l ++ m)%list = lstrip set m.
Proof.
  induction l as [|c l IH]; intros H; [reflexivity|]. cbn. replace (existsb (Ascii.eqb c) set) with true; [apply IH; intros; apply H; now right|].
  symmetry. apply existsb_exists. exists c. split; [apply H; now left|]. now destruct (Ascii.eqb_spec c c).
Qed.
Lemma lstrip_stop set a m : ~ In a set -> lstrip set (a :: m) = a :: m.
Proof.
  intros N. cbn. destruct (existsb (Ascii.eqb a) set) eqn:E; [|reflexivity]. apply existsb_exists in E. destruct E as (x & I & E). destruct (Ascii.eqb_spec a x) as [->|]; [contradiction|discriminate].
Qed.
Lemma ascii_app s t : list_ascii_of_string (s ++ t) = (list_ascii_of_string s ++ list_ascii_of_string t)%list.
Proof. induction s; cbn; [reflexivity|now rewrite IHs]. Qed.
Lemma strip_plain name : plain name -> strip "_binning" (name ++ "_binning") = name.
Proof.
  intros (a & l & b & l' & E1 & E2 & Na & Nb). unfold strip. set (set := list_ascii_of_string "_binning") in *. cbv zeta. rewrite ascii_app. fold set. rewrite E1. cbn [List.app].
  rewrite lstrip_stop by trivial. change (a :: l ++ set)%list with ((a :: l) ++ set)%list. rewrite <- E1, rev_app_distr, lstrip_all by (intros c; apply in_rev).
  rewrite E2, rev_app_distr. cbn [rev List.app]. rewrite lstrip_stop by trivial. cbn [rev]. rewrite rev_involutive, <- E2. apply string_of_list_ascii_of_string.
Qed.

(** words *)
Lemma words_word s cur t : word s \/ s = "" -> words_from cur (s ++ t) = words_from (cur ++ s) t.
Proof.
  assert (K : (forall c, In c (list_ascii_of_string s) -> blank c = false) -> words_from cur (s ++ t) = words_from (cur ++ s) t).
  { revert cur. induction s as [|c s IH]; intros cur H; cbn [String.append].
    - f_equal. clear. induction cur; cbn; [reflexivity|now rewrite <- IHcur].
    - cbn [words_from]. rewrite (H c) by now left. rewrite IH by (intros; apply H; now right). f_equal. now rewrite app_s. }
  intros [[_ H]| ->]; [now apply K|]. apply K. cbn. tauto.
Qed.
Lemma words_two x u : word x -> word u -> words (x ++ " " ++ u) = [x; u].
Proof.
  intros Hx Hu. unfold words. rewrite words_word by now left. change ("" ++ x) with x.
  change (words_from x (" " ++ u)) with ((match x with "" => [] | _ => [x] end ++ words_from "" u)%list).
  assert (E : u = u ++ "") by (clear; induction u; cbn; [reflexivity|now rewrite <- IHu]). rewrite E at 1. rewrite words_word by now left. change ("" ++ u) with u.
  destruct x; [now destruct Hx|]. destruct u; [now destruct Hu|]. reflexivity.
Qed.

Section Units.
  Variable float : string -> option Q.
  Variable unit : string -> option Q.
  Notation means := (means float unit). Notation declared := (declared float unit). Notation readable := (readable float unit).
  Notation first_of_type := (first_of_type float unit). Notation first_key := (first_key float unit).
  Notation width := (width float unit). Notation get_sensor_binning := (get_sensor_binning float unit).

  Lemma width_means v w : means v w -> width v = Ok w.
  Proof. intros (x & u & q & k & -> & Hx & Hu & Fx & Fu & ->). unfold SbinModel.width. rewrite words_two by trivial. now rewrite Fx, Fu. Qed.

  (** the first rows *)
  Lemma seen_spec k seen : existsb (String.eqb k) seen = true <-> In k seen.
  Proof. rewrite existsb_exists. split; [intros (x & I & E); apply String.eqb_eq in E; now subst|]. intros I. exists k. split; [trivial|apply String.eqb_refl]. Qed.
  Lemma first_rows_in l : forall seen k v, In (k, v) (first_rows seen l) <-> ~ In k seen /\ exists l1 l2, l = (l1 ++ (k, v) :: l2)%list /\ ~ In k (List.map fst l1).
  Proof.
    induction l as [|[k' v'] l IH]; intros seen k v; cbn [first_rows].
    - split; [easy|]. intros (_ & l1 & l2 & E & _). destruct l1; discriminate.
    - destruct (existsb (String.eqb k') seen) eqn:E.
      + apply seen_spec in E. rewrite IH. split.
        * intros (N & l1 & l2 & -> & N1). split; [trivial|]. exists ((k', v') :: l1), l2. split; [reflexivity|]. cbn. intros [->|]; contradiction.
        * intros (N & l1 & l2 & El & N1). split; [trivial|]. destruct l1 as [|r l1]; cbn in El; [injection El as -> ->; contradiction|]. injection El as <- ->. exists l1, l2. split; [reflexivity|]. cbn in N1. tauto.
      + assert (Ns : ~ In k' seen) by (rewrite <- seen_spec; congruence). cbn [In]. rewrite IH. cbn [In]. split.
        * intros [E1|(N & l1 & l2 & -> & N1)]; [injection E1 as -> ->; split; [trivial|]; exists [], l; split; [reflexivity|easy]|]. split; [tauto|]. exists ((k', v') :: l1), l2. split; [reflexivity|]. cbn. tauto.
        * intros (N & l1 & l2 & El & N1). destruct l1 as [|r l1]; cbn in El; [left; congruence|]. injection El as <- ->. cbn in N1. right. split; [tauto|]. exists l1, l2. split; [reflexivity|tauto].
  Qed.
  Lemma first_rows_nodup l : forall seen, NoDup (List.map fst (first_rows seen l)) .
  Proof.
    induction l as [|[k v] l IH]; intros seen; cbn; [constructor|]. destruct (existsb _ seen); [apply IH|]. cbn. constructor; [|apply IH].
    rewrite in_map_iff. intros ([k' v'] & E & I). cbn in E. subst k'. apply first_rows_in in I. destruct I as [N _]. apply N. now left.
  Qed.
  Lemma filter_split {A} (p : A -> bool) l x m1 m2 : filter p l = (m1 ++ x :: m2)%list -> exists l1 l2, l = (l1 ++ x :: l2)%list /\ filter p l1 = m1.
  Proof.
    revert m1. induction l as [|a l IH]; intros m1 E; [destruct m1; discriminate|]. cbn in E. destruct (p a) eqn:Pa.
    - destruct m1 as [|b m1]; cbn in E; injection E as -> E; [exists [], l; split; reflexivity|]. destruct (IH m1 E) as (l1 & l2 & -> & F). exists (b :: l1), l2. split; [reflexivity|]. cbn. now rewrite Pa, F.
    - destruct (IH m1 E) as (l1 & l2 & -> & F). exists (a :: l1), l2. split; [reflexivity|]. cbn. now rewrite Pa.
  Qed.
  Lemma filter_first l k v : contains "binning" k = true -> (In (k, v) (first_rows [] (filter (fun r : conf_row => contains "binning" (fst r)) l)) <-> exists l1 l2, l = (l1 ++ (k, v) :: l2)%list /\ ~ In k (List.map fst l1)).
  Proof.
    intros C. rewrite first_rows_in. split.
    - intros (_ & m1 & m2 & E & N). destruct (filter_split _ _ _ _ _ E) as (l1 & l2 & -> & F). exists l1, l2. split; [reflexivity|]. intros I. apply N. rewrite <- F. apply in_map_iff in I. destruct I as ([k' v'] & E' & I). cbn in E'. subst k'. apply in_map_iff. exists (k, v'). split; [reflexivity|]. apply filter_In. now split.
    - intros (l1 & l2 & -> & N). split; [easy|]. exists (filter (fun r : conf_row => contains "binning" (fst r)) l1), (filter (fun r : conf_row => contains "binning" (fst r)) l2).
      rewrite filter_app. cbn [filter fst]. rewrite C. split; [reflexivity|]. intros I. apply N. apply in_map_iff in I. destruct I as (r & E & I). apply filter_In in I. apply in_map_iff. exists r. tauto.
  Qed.

  Definition read_bins (l : list conf_row) : result (list (string * Q)) := rmap (fun '(k, v) => rbind (width v) (fun w => Ok (strip "_binning" k, w))) l.
  Lemma read_bins_ok l : (forall k v, In (k, v) l -> exists name w, k = name ++ "_binning" /\ plain name /\ means v w) ->
    exists bins, read_bins l = Ok bins /\ Forall2 (fun r b => fst r = fst b ++ "_binning" /\ plain (fst b) /\ means (snd r) (snd b)) l bins.
  Proof.
    induction l as [|[k v] l IH]; intros H; [exists []; split; [reflexivity|constructor]|].
    destruct (H k v) as (name & w & Ek & P & M); [now left|]. destruct IH as (bins & E & F); [intros; apply H; now right|].
    exists ((name, w) :: bins). unfold read_bins in *. cbn [rmap]. rewrite (width_means v w M). cbn [rbind]. rewrite Ek, strip_plain by trivial. cbn [rbind]. rewrite E. cbn [rbind]. split; [reflexivity|]. constructor; [cbn; now rewrite <- Ek|trivial].
  Qed.
  Lemma app_inj u v w : u ++ w = v ++ w -> u = v.
  Proof.
    intros E. apply (f_equal list_ascii_of_string) in E. rewrite !ascii_app in E. apply app_inv_tail in E. rewrite <- (string_of_list_ascii_of_string u), <- (string_of_list_ascii_of_string v). now rewrite E.
  Qed.
  Lemma has_binning name : contains "binning" (name ++ "_binning") = true.
  Proof. apply contains_spec. exists (name ++ "_"), "". rewrite app_s. reflexivity. Qed.
  Lemma means_det v w w' : means v w -> means v w' -> w = w'.
  Proof. intros A B. apply width_means in A, B. congruence. Qed.

  Lemma binning_rows cfg : readable cfg -> exists bins, get_sensor_binning false cfg = Ok (filter (fun r => negb (contains "Geom" (fst r))) bins) /\
    Forall2 (fun r b => fst r = fst b ++ "_binning" /\ plain (fst b) /\ means (snd r) (snd b)) (first_rows [] (filter (fun r => contains "binning" (fst r)) cfg)) bins.
  Proof.
    intros R. destruct (read_bins_ok (first_rows [] (filter (fun r => contains "binning" (fst r)) cfg))) as (bins & E & F).
    { intros k v I. apply first_rows_in in I. destruct I as (_ & l1 & l2 & E & _). assert (I : In (k, v) (filter (fun r => contains "binning" (fst r)) cfg)) by (rewrite E; apply in_or_app; right; now left).
      apply filter_In in I. destruct I as [I C]. apply (R k v I). now apply contains_spec. }
    exists bins. split; [|trivial]. unfold SbinModel.get_sensor_binning, load_mcconfiguration. cbv zeta. change (rmap _ ?l) with (read_bins l). rewrite E. reflexivity.
  Qed.

  (** C89: every sensor declared in the configuration, once, with its own period *)
  Theorem C89_binning cfg : readable cfg -> exists bins, get_sensor_binning false cfg = Ok bins /\ NoDup (List.map fst bins) /\
    forall name w, In (name, w) bins <-> declared cfg name w /\ plain name /\ ~ within "Geom" name.
  Proof.
    intros R. destruct (binning_rows cfg R) as (bins & E & F). exists (filter (fun r => negb (contains "Geom" (fst r))) bins). split; [trivial|].
    set (rows := first_rows _ _) in F. assert (N : NoDup (List.map fst rows)) by apply first_rows_nodup.
    assert (Nb : NoDup (List.map fst bins)).
    { clear -F N. induction F as [|[k v] [n w] rows bins (A & B & C) F IH]; [constructor|]. cbn in *. inversion_clear N as [|? ? Nk N']. constructor; [|now apply IH]. intros I. apply Nk. clear -F I A.
      induction F as [|[k' v'] [n' w'] rows bins (A' & _) F IH]; [easy|]. cbn in *. destruct I as [->|I]; [left; congruence|right; now apply IH]. }
    assert (I1 : forall name w, In (name, w) bins -> plain name /\ exists v, In ((name ++ "_binning")%string, v) rows /\ means v w).
    { clear -F. induction F as [|[k v] [n w] rows bins (A & B & C) F IH]; [easy|]. cbn in *. intros name w0 [E|I]; [injection E as -> ->; split; [trivial|]; exists v; split; [left; now rewrite A|trivial]|]. destruct (IH name w0 I) as (P & v' & I' & M). split; [trivial|]. exists v'. tauto. }
    assert (I2 : forall k v, In (k, v) rows -> exists name w, In (name, w) bins /\ k = name ++ "_binning" /\ plain name /\ means v w).
    { clear -F. induction F as [|[k v] [n w] rows bins (A & B & C) F IH]; [easy|]. cbn in *. intros k0 v0 [E|I]; [injection E as -> ->; exists n, w; tauto|]. destruct (IH k0 v0 I) as (name & w' & H). exists name, w'. tauto. }
    split.
    - clear -Nb. induction bins as [|b bins IH]; [constructor|]. inversion_clear Nb as [|? ? Nk N']. cbn. destruct (negb _); [|now apply IH]. cbn. constructor; [|now apply IH]. intros I. apply Nk. apply in_map_iff in I. destruct I as (x & Ex & I). apply filter_In in I. apply in_map_iff. exists x. tauto.
    - intros name w. rewrite filter_In. cbn [fst]. rewrite Bool.negb_true_iff, contains_false. split.
      + intros [I G]. destruct (I1 name w I) as (P & v & Iv & M). split; [|tauto]. apply filter_first in Iv; [|apply has_binning]. destruct Iv as (l1 & l2 & -> & Nl). exists l1, v, l2. tauto.
      + intros ((l1 & v & l2 & Ec & Nl & M) & P & G). split; [|trivial]. assert (Iv : In ((name ++ "_binning")%string, v) rows) by (apply filter_first; [apply has_binning|]; now exists l1, l2).
        destruct (I2 _ _ Iv) as (name' & w' & I & En & _ & M'). apply app_inj in En. subst name'. now rewrite (means_det v w w' M M').
  Qed.

  (** C89: the periods of the photomultipliers and of the SiPMs are those of the first sensor of each type *)
  Lemma first_like_spec p cfg bins w : readable cfg -> get_sensor_binning false cfg = Ok bins -> first_of_type p cfg w -> first_like p bins = Ok w.
  Proof.
    intros R E (l1 & name & v & l2 & Ec & Pn & G & M & Before). destruct (binning_rows cfg R) as (all & E' & F).
    assert (bins = filter (fun r => negb (contains "Geom" (fst r))) all) as -> by congruence. clear E E'. unfold first_like.
    assert (K : forall l all seen, Forall2 (fun r b => fst r = fst b ++ "_binning" /\ plain (fst b) /\ means (snd r) (snd b)) (first_rows seen (filter (fun r : conf_row => contains "binning" (fst r)) l)) all ->
      forall l1, l = (l1 ++ ((name ++ "_binning")%string, v) :: l2)%list -> ~ In (name ++ "_binning") seen ->
      (forall name', In (name' ++ "_binning") (List.map fst l1) -> within "Geom" name' \/ ~ within p name') ->
      match filter (fun r => contains p (fst r)) (filter (fun r => negb (contains "Geom" (fst r))) all) with r :: _ => Ok (snd r) | [] => Err IndexError end = Ok w).
    { clear F Ec Before l1 all cfg R. induction l as [|[k0 v0] l IH]; intros all seen F l1 El Ns Before; [destruct l1; discriminate|].
      destruct l1 as [|r1 l1]; cbn in El.
      - injection El as -> -> El. cbn [filter fst first_rows] in F. rewrite has_binning in F. cbn [first_rows] in F. destruct (existsb _ seen) eqn:Es; [apply seen_spec in Es; contradiction|].
        inversion F as [|? [n0 w0] ? all' (A & _ & C) F' E1 E2]. subst. cbn [fst snd] in *. apply app_inj in A. subst n0. cbn [filter fst].
        assert (Gf : contains "Geom" name = false) by now apply contains_false. assert (Pt : contains p name = true) by now apply contains_spec. rewrite Gf. cbn [negb filter fst]. rewrite Pt. cbn [snd]. f_equal. now apply (means_det v).
      - injection El as <- El. cbn [filter fst] in F. assert (B' : forall name', In (name' ++ "_binning") (List.map fst l1) -> within "Geom" name' \/ ~ within p name') by (intros n I; apply Before; now right).
        destruct (contains "binning" k0) eqn:C0; [|now apply (IH all seen F l1)]. cbn [first_rows] in F. destruct (existsb (String.eqb k0) seen) eqn:Es; [now apply (IH all seen F l1)|].
        inversion F as [|? [n0 w0] ? all' (A & _ & C) F' E1 E2]. subst all. cbn [fst snd] in *. subst k0.
        assert (Bn : within "Geom" n0 \/ ~ within p n0) by (apply Before; now left).
        assert (Nn : name ++ "_binning" <> n0 ++ "_binning"). { intros En. apply app_inj in En. subst n0. tauto. }
        specialize (IH all' ((n0 ++ "_binning") :: seen) F' l1 El). cbn [filter fst].
        assert (IH' : match filter (fun r => contains p (fst r)) (filter (fun r => negb (contains "Geom" (fst r))) all') with r :: _ => Ok (snd r) | [] => Err IndexError end = Ok w).
        { apply IH; [|trivial]. intros [I|I]; [now apply Nn|contradiction]. }
        destruct Bn as [Bn|Bn]; [apply contains_spec in Bn; rewrite Bn; exact IH'|]. apply contains_false in Bn. destruct (negb (contains "Geom" n0)); cbn [filter fst]; [rewrite Bn|]; exact IH'. }
    apply (K cfg all [] F l1 Ec); [easy|trivial].
  Qed.
  Theorem C89_periods cfg pw sw : readable cfg -> first_of_type "Pmt" cfg pw -> first_of_type "SiPM" cfg sw ->
    (forall name w, declared cfg name w -> ~ within "Geom" name -> (0 < w)%Q) -> pmt_and_sipm_bin_width float unit false cfg = Ok (pw, sw).
  Proof.
    intros R P S Pos. unfold pmt_and_sipm_bin_width. destruct (C89_binning cfg R) as (bins & E & _ & I). rewrite E. cbn [rbind].
    pose proof (first_like_spec _ _ _ _ R E P) as Fp. pose proof (first_like_spec _ _ _ _ R E S) as Fs.
    destruct bins as [|b bins]; [discriminate|]. replace (existsb (fun r => Qle_bool (snd r) 0) (b :: bins)) with false; [now rewrite Fp, Fs|].
    symmetry. apply Bool.not_true_iff_false. intros X. apply existsb_exists in X. destruct X as ([n w] & In0 & X). apply I in In0. destruct In0 as (D & _ & G). specialize (Pos n w D G). apply Qle_bool_iff in X. cbn in X. lra.
  Qed.
  Theorem C89_not_positive cfg name w : readable cfg -> declared cfg name w -> plain name -> ~ within "Geom" name -> (w <= 0)%Q -> pmt_and_sipm_bin_width float unit false cfg = Err NoSuchNodeError.
  Proof.
    intros R D P G Le. unfold pmt_and_sipm_bin_width. destruct (C89_binning cfg R) as (bins & E & _ & I). rewrite E. cbn [rbind].
    destruct bins as [|b bins]; [reflexivity|]. replace (existsb (fun r => Qle_bool (snd r) 0) (b :: bins)) with true; [reflexivity|].
    symmetry. apply existsb_exists. exists (name, w). split; [apply I; tauto|]. now apply Qle_bool_iff.
  Qed.

  (** the file that is used is the first one with useful periods *)
  Theorem C89_files useless f files r : (forall g, In g useless -> widths_of_file float unit g = Err NoSuchNodeError) -> widths_of_file float unit f = r -> r <> Err NoSuchNodeError ->
    pmt_and_sipm_bin_width_safe float unit (useless ++ f :: files)%list = r /\ pmt_and_sipm_bin_width_safe float unit useless = Err NoSuchNodeError.
  Proof.
    intros U <- N. induction useless as [|g useless IH]; cbn [List.app pmt_and_sipm_bin_width_safe].
    - split; [|reflexivity]. destruct (widths_of_file float unit f) as [x|e]; [reflexivity|]. destruct e; try reflexivity. unfold NoSuchNodeError in N. do 37 (destruct n as [|n]; [try reflexivity; exfalso; now apply N|]). reflexivity.
    - rewrite (U g) by now left. unfold NoSuchNodeError at 1 2. apply IH. intros; apply U; now right.
  Qed.

  (** files before 2020 *)
  Lemma rename_spec p new key : rename p new key = new /\ key_of p key \/ rename p new key = key /\ ~ key_of p key.
  Proof.
    unfold rename, key_of. destruct (after p key) as [r|] eqn:E.
    - destruct (contains "_binning" r) eqn:C.
      + left. split; [reflexivity|]. apply contains_spec in C. destruct C as (b & c & ->). destruct (after_some _ _ _ E) as (a & ->). now exists a, b, c.
      + right. split; [reflexivity|]. intros (a & b & c & ->). destruct (after_first p a (b ++ "_binning" ++ c)) as (r' & d & E' & ->). assert (r = d ++ b ++ "_binning" ++ c) as -> by congruence.
        apply contains_false in C. apply C. exists (d ++ b), c. now rewrite app_s.
    - right. split; [reflexivity|]. intros (a & b & c & ->). destruct (after_first p a (b ++ "_binning" ++ c)) as (r' & d & E' & _). congruence.
  Qed.
  Definition pmt_key : string := "PmtR11410_binning".
  Definition sipm_key : string := "SiPM_binning".
  Definition ren (k : string) : string := rename "SiPM" sipm_key (rename "Pmt" pmt_key k).
  Lemma ren_spec k : ren k = pmt_key /\ key_of "Pmt" k \/ ren k = sipm_key /\ key_of "SiPM" k /\ ~ key_of "Pmt" k \/ ren k = k /\ ~ key_of "SiPM" k /\ ~ key_of "Pmt" k.
  Proof.
    unfold ren. destruct (rename_spec "Pmt" pmt_key k) as [[-> H]|[-> H]].
    - left. split; [reflexivity|trivial].
    - destruct (rename_spec "SiPM" sipm_key k) as [[-> H']|[-> H']]; [right; left|right; right]; tauto.
  Qed.
  Lemma key_has_binning p k : key_of p k -> within "binning" k.
  Proof. intros (a & b & c & ->). exists (a ++ p ++ b ++ "_"), c. rewrite !app_s. reflexivity. Qed.
  Lemma plain_pmt : plain "PmtR11410".
  Proof. eexists _, _, _, ["P"; "m"; "t"; "R"; "1"; "1"; "4"; "1"]%char. split; [reflexivity|]. split; [reflexivity|]. cbn. split; intros H; repeat destruct H as [H|H]; try discriminate; trivial. Qed.
  Lemma plain_sipm : plain "SiPM".
  Proof. eexists _, _, _, ["S"; "i"; "P"]%char. split; [reflexivity|]. split; [reflexivity|]. cbn. split; intros H; repeat destruct H as [H|H]; try discriminate; trivial. Qed.

  Theorem C89_old cfg : (forall key v, In (key, v) cfg -> within "binning" key -> (key_of "Pmt" key \/ key_of "SiPM" key) /\ exists w, means v w) ->
    exists bins, get_sensor_binning true cfg = Ok bins /\ NoDup (List.map fst bins) /\
    forall name w, In (name, w) bins <-> name = "PmtR11410" /\ first_key (key_of "Pmt") cfg w \/ name = "SiPM" /\ first_key (fun k => key_of "SiPM" k /\ ~ key_of "Pmt" k) cfg w.
  Proof.
    intros R. set (cfg' := load_mcconfiguration true cfg).
    assert (E' : cfg' = first_rows [] (List.map (fun '(k, v) => (ren k, v)) cfg)) by reflexivity.
    assert (In' : forall k v, In (k, v) cfg' -> exists k0, In (k0, v) cfg /\ k = ren k0).
    { intros k v I. rewrite E' in I. apply first_rows_in in I. destruct I as (_ & l1 & l2 & E & _). assert (I : In (k, v) (List.map (fun '(k, v) => (ren k, v)) cfg)) by (rewrite E; apply in_or_app; right; now left).
      apply in_map_iff in I. destruct I as ([k0 v0] & E0 & I). injection E0 as <- <-. now exists k0. }
    assert (R' : readable cfg').
    { intros k v I B. destruct (In' k v I) as (k0 & I0 & ->). destruct (ren_spec k0) as [[-> H]|[(-> & H & _)|(Er & N1 & N2)]].
      - destruct (R k0 v I0 (key_has_binning _ _ H)) as [_ [w M]]. exists "PmtR11410", w. split; [reflexivity|]. split; [exact plain_pmt|trivial].
      - destruct (R k0 v I0 (key_has_binning _ _ H)) as [_ [w M]]. exists "SiPM", w. split; [reflexivity|]. split; [exact plain_sipm|trivial].
      - rewrite Er in B. destruct (R k0 v I0 B) as [[?|?] _]; contradiction. }
    destruct (C89_binning cfg' R') as (bins & E & N & I). exists bins. split; [exact E|]. split; [trivial|].
    assert (D : forall name w, declared cfg' name w <-> exists v, In ((name ++ "_binning")%string, v) cfg' /\ means v w).
    { intros name w. split.
      - intros (l1 & v & l2 & -> & _ & M). exists v. split; [apply in_or_app; right; now left|trivial].
      - intros (v & Iv & M). apply in_split in Iv. destruct Iv as (l1 & l2 & El). exists l1, v, l2. split; [trivial|]. split; [|trivial].
        pose proof (first_rows_nodup (List.map (fun '(k, v) => (ren k, v)) cfg) []) as Nd. rewrite <- E', El, map_app in Nd. cbn [List.map fst] in Nd. apply NoDup_remove_2 in Nd. intros X. apply Nd. apply in_or_app. now left. }
    assert (K : forall key (P : string -> Prop) w, (forall k, ren k = key <-> P k \/ (k = key /\ ~ key_of "SiPM" k /\ ~ key_of "Pmt" k)) -> within "binning" key -> ((exists v, In (key, v) cfg' /\ means v w) <-> first_key P cfg w)).
    { intros key P w Hk Bk.
      assert (Hk' : forall k, In k (List.map fst cfg) -> ren k = key <-> P k).
      { intros k Ik. rewrite Hk. split; [|tauto]. intros [?|(-> & N1 & N2)]; [trivial|]. exfalso. apply in_map_iff in Ik. destruct Ik as ([k' v'] & Ek & Ik). cbn in Ek. subst k'. destruct (R key v' Ik Bk) as [[?|?] _]; contradiction. }
      split.
      - intros (v & Iv & M). rewrite E' in Iv. apply first_rows_in in Iv. destruct Iv as (_ & m1 & m2 & Em & Nm).
        assert (S : exists l1 k0 l2, cfg = (l1 ++ (k0, v) :: l2)%list /\ m1 = List.map (fun '(k, v) => (ren k, v)) l1 /\ ren k0 = key).
        { clear -Em. revert m1 Em. induction cfg as [|[k0 v0] c IH]; intros m1 Em; [destruct m1; discriminate|]. destruct m1 as [|x m1]; cbn in Em.
          - injection Em as Ek -> _. exists [], k0, c. now split.
          - injection Em as <- Em. destruct (IH m1 Em) as (l1 & k1 & l2 & -> & -> & Ek). exists ((k0, v0) :: l1), k1, l2. now split. }
        destruct S as (l1 & k0 & l2 & Ec & -> & Ek). exists l1, k0, v, l2. split; [trivial|]. split; [apply Hk'; [rewrite Ec, map_app; apply in_or_app; right; now left|trivial]|]. split; [trivial|].
        intros k' I' Pk. apply Nm. rewrite map_map. apply in_map_iff in I'. destruct I' as ([k1 v1] & E1 & I1). cbn in E1. subst k1. apply in_map_iff. exists (k', v1). split; [|trivial]. cbn. apply Hk'; [|trivial]. rewrite Ec, map_app. apply in_or_app. left. apply in_map_iff. exists (k', v1). now split.
      - intros (l1 & k0 & v & l2 & Ec & Pk & M & Before). exists v. split; [|trivial]. rewrite E', first_rows_in. split; [easy|].
        exists (List.map (fun '(k, v) => (ren k, v)) l1), (List.map (fun '(k, v) => (ren k, v)) l2).
        assert (Ek : ren k0 = key) by (apply Hk'; [rewrite Ec, map_app; apply in_or_app; right; now left|trivial]). split; [rewrite Ec, map_app; cbn [List.map]; now rewrite Ek|].
        rewrite map_map. intros X. apply in_map_iff in X. destruct X as ([k1 v1] & E1 & I1). cbn in E1. apply (Before k1); [apply in_map_iff; now exists (k1, v1)|]. apply Hk'; [|trivial]. rewrite Ec, map_app. apply in_or_app. left. apply in_map_iff. now exists (k1, v1). }
    assert (Kp : forall w, declared cfg' "PmtR11410" w <-> first_key (key_of "Pmt") cfg w).
    { intros w. rewrite D. apply (K pmt_key); [|apply (key_has_binning "Pmt"); exists "", "R11410", ""; reflexivity].
      intros k. destruct (ren_spec k) as [[-> H]|[(-> & H & N1)|(-> & N1 & N2)]]; [tauto| |tauto].
      split; [discriminate|]. intros [?|(_ & ? & _)]; contradiction. }
    assert (Ks : forall w, declared cfg' "SiPM" w <-> first_key (fun k => key_of "SiPM" k /\ ~ key_of "Pmt" k) cfg w).
    { intros w. rewrite D. apply (K sipm_key); [|apply (key_has_binning "SiPM"); exists "", "", ""; reflexivity].
      intros k. destruct (ren_spec k) as [[-> H]|[(-> & H & N1)|(-> & N1 & N2)]]; [|tauto|tauto].
      split; [discriminate|]. intros [[_ ?]|(_ & _ & ?)]; contradiction. }
    intros name w. rewrite I. split.
    - intros (Dn & P & G). pose proof Dn as Dn0. apply D in Dn. destruct Dn as (v & Iv & M). destruct (In' _ _ Iv) as (k0 & I0 & Ek).
      destruct (ren_spec k0) as [[Er H]|[(Er & H & _)|(Er & N1 & N2)]].
      + left. rewrite Er in Ek. change pmt_key with ("PmtR11410" ++ "_binning") in Ek. apply app_inj in Ek. subst name. split; [reflexivity|]. now apply Kp.
      + right. rewrite Er in Ek. change sipm_key with ("SiPM" ++ "_binning") in Ek. apply app_inj in Ek. subst name. split; [reflexivity|]. now apply Ks.
      + exfalso. rewrite Er in Ek. assert (B : within "binning" k0) by (rewrite <- Ek; apply contains_spec, has_binning). destruct (R k0 v I0 B) as [[?|?] _]; contradiction.
    - intros [[-> F]|[-> F]].
      + split; [now apply Kp|]. split; [exact plain_pmt|]. apply contains_false. reflexivity.
      + split; [now apply Ks|]. split; [exact plain_sipm|]. apply contains_false. reflexivity.
  Qed.
End Units.

(** str.strip takes letters of the name away: the sensors called PmtIn have no period, and their times are NaN *)
Definition ex_float (s : string) : option Q := if String.eqb s "100" then Some 100%Q else if String.eqb s "1" then Some 1%Q else None.
Definition ex_unit (s : string) : option Q := if String.eqb s "nanosecond" then Some 1%Q else if String.eqb s "microsecond" then Some 1000%Q else None.
Theorem C89_letters_refuted : exists cfg w, declared ex_float ex_unit cfg "PmtIn" w /\ (0 < w)%Q /\
  exists bins, get_sensor_binning ex_float ex_unit false cfg = Ok bins /\ List.map fst bins = ["PmtI"] /\
    List.map s_time (convert_timebin_to_time [ {| r_event := 0; r_sensor := 3; r_bin := 7; r_charge := 1 |} ] bins [(3%Z, "PmtIn")]) = [None].
Proof.
  exists [("PmtIn_binning", "100 nanosecond")], (100 * 1)%Q. split; [|split; [reflexivity|]].
  - exists [], "100 nanosecond", []. split; [reflexivity|]. split; [easy|]. exists "100", "nanosecond", 100%Q, 1%Q. repeat split; try discriminate; cbn; intros c H; repeat destruct H as [<-|H]; try reflexivity; contradiction.
  - eexists. split; [reflexivity|]. split; reflexivity.
Qed.

Definition ex_conf : list conf_row := [("geometry", "NEXT100"); ("SiPM_binning", "1 microsecond"); ("PmtR11410_binning", "100 nanosecond"); ("SiPM_binning", "100 nanosecond")].
Example C89_ex : readable ex_float ex_unit ex_conf /\ first_of_type ex_float ex_unit "Pmt" ex_conf (100 * 1) /\ first_of_type ex_float ex_unit "SiPM" ex_conf (1 * 1000) /\
  get_sensor_binning ex_float ex_unit false ex_conf = Ok [("SiPM", (1 * 1000)%Q); ("PmtR11410", (100 * 1)%Q)].
Proof.
  assert (W : forall s, s = "1" \/ s = "100" \/ s = "nanosecond" \/ s = "microsecond" -> word s).
  { intros s [->|[->|[->| ->]]]; (split; [discriminate|]); cbn; intros c H; repeat destruct H as [<-|H]; try reflexivity; contradiction. }
  assert (M1 : means ex_float ex_unit "1 microsecond" (1 * 1000)) by (exists "1", "microsecond", 1%Q, 1000%Q; repeat split; apply W; tauto).
  assert (M2 : means ex_float ex_unit "100 nanosecond" (100 * 1)) by (exists "100", "nanosecond", 100%Q, 1%Q; repeat split; apply W; tauto).
  split; [|split; [|split; [|reflexivity]]].
  - intros key v [E|[E|[E|[E|[]]]]] B; injection E as <- <-.
    + apply contains_spec in B. discriminate.
    + exists "SiPM", (1 * 1000)%Q. split; [reflexivity|]. split; [exact plain_sipm|exact M1].
    + exists "PmtR11410", (100 * 1)%Q. split; [reflexivity|]. split; [exact plain_pmt|exact M2].
    + exists "SiPM", (100 * 1)%Q. split; [reflexivity|]. split; [exact plain_sipm|exact M2].
  - exists [("geometry", "NEXT100"); ("SiPM_binning", "1 microsecond")], "PmtR11410", "100 nanosecond", [("SiPM_binning", "100 nanosecond")]. split; [reflexivity|]. split; [apply contains_spec; reflexivity|]. split; [apply contains_false; reflexivity|]. split; [exact M2|].
    intros name' [E|[E|[]]]; right; apply contains_false.
    + exfalso. assert (B : contains "binning" "geometry" = true) by (cbn in E; rewrite E; apply has_binning). discriminate.
    + change "SiPM_binning" with ("SiPM" ++ "_binning") in E. cbn [fst] in E. apply app_inj in E. subst. reflexivity.
  - exists [("geometry", "NEXT100")], "SiPM", "1 microsecond", [("PmtR11410_binning", "100 nanosecond"); ("SiPM_binning", "100 nanosecond")]. split; [reflexivity|]. split; [apply contains_spec; reflexivity|]. split; [apply contains_false; reflexivity|]. split; [exact M1|].
    intros name' [E|[]]. exfalso. assert (B : contains "binning" "geometry" = true) by (cbn in E; rewrite E; apply has_binning). discriminate.
Qed.
Print Assumptions C89_binning.
Print Assumptions C89_periods.
Print Assumptions C89_not_positive.
Print Assumptions C89_files.
Print Assumptions C89_old.
Print Assumptions C89_letters_refuted.
