(** C43: dropping isolated clusters, and the event as a whole *)
From Verif Require Import Base Arrays PeaksModel PeaksProofs BuffersProofs BuffersEvent WfmProps XyProps PmapioProofs DbModel DbProps CorrModel CorrSpec CorrProps CorrMore PaolinaModel PaolinaTracks PaolinaProps Graph PsfModel PsfSpec PsfProps PsfSplit PsfPeak DeconvModel DeconvSpec DeconvProps.
From Coq Require Import Relations Permutation.
Local Open Scope Q_scope.

Lemma NoDup_app_remove_l {A} (l m : list A) : NoDup (l ++ m) -> NoDup m.
Proof. induction l as [|a l IH]; cbn; [auto|]. intros H. inversion H; auto. Qed.
Lemma NoDup_app_remove_r {A} (l m : list A) : NoDup (l ++ m) -> NoDup l.
Proof. induction l as [|a l IH]; cbn; [constructor|]. intros H. inversion H; subst. constructor; [|auto]. intros C. apply H2. apply in_app_iff. now left. Qed.
Section Clusters.
  Variables (dx dy dz : Q) (df : list dhit).
  Hypothesis uniq : NoDup (map d_index df).
  Let es := close_pairs dx dy dz df.
  Let G := graph_nodes df es.
  Let K := components (edge es) G.
  Lemma index_inj a b : In a df -> In b df -> d_index a = d_index b -> a = b.
  Proof using uniq.
    clear es G K. induction df as [|h l IH]; [intros []|]. cbn in uniq. inversion uniq as [|x y N U]; subst. intros [<-|Ha] [<-|Hb] E; auto.
    - exfalso. apply N. rewrite E. now apply in_map.
    - exfalso. apply N. rewrite <- E. now apply in_map.
  Qed.
  Lemma within_iff a b : within dx dy dz a b = true <-> close dx dy dz a b.
  Proof.
    unfold within, close. rewrite Qleb_le. assert (E : forall p q r : Q, p / r - q / r == (p - q) / r) by (intros; unfold Qdiv; ring). rewrite !E. reflexivity.
  Qed.
  Lemma close_sym a b : close dx dy dz a b -> close dx dy dz b a.
  Proof.
    unfold close. assert (E : forall p q r : Q, (p - q) / r * ((p - q) / r) == (q - p) / r * ((q - p) / r)) by (intros; unfold Qdiv; ring). rewrite (E (dX a)), (E (dY a)), (E (dZ a)). auto.
  Qed.
  Lemma edge_sym u v : edge es u v = true -> edge es v u = true.
  Proof. unfold edge. rewrite !existsb_exists. intros (e & He & H). exists e. split; [assumption|]. apply orb_true_iff in H. apply orb_true_iff. tauto. Qed.
  Lemma edge_iff u v : edge es u v = true <-> exists a b, In a df /\ In b df /\ a <> b /\ close dx dy dz a b /\ d_index a = u /\ d_index b = v.
  Proof using uniq.
    assert (NDf : NoDup df) by (eapply NoDup_map_inv; eassumption).
    unfold edge. rewrite existsb_exists. unfold es, close_pairs. split.
    - intros (e & He & H). apply in_map_iff in He. destruct He as ([a b] & <- & Hp). apply filter_In in Hp. destruct Hp as [Hp W]. cbn [fst snd] in *. apply within_iff in W. apply combinations2_in in Hp. destruct Hp as (i & j & Hij & Hi & Hj).
      assert (a <> b). { intros ->. rewrite NoDup_nth_error in NDf. assert (i = j); [|lia]. apply NDf; [apply nth_error_Some; congruence|congruence]. }
      apply nth_error_In in Hi. apply nth_error_In in Hj. apply orb_true_iff in H. destruct H as [H|H]; apply andb_true_iff in H; destruct H as [H1 H2]; apply Nat.eqb_eq in H1; apply Nat.eqb_eq in H2.
      + exists a, b. auto 7.
      + exists b, a. repeat split; auto. now apply close_sym.
    - intros (a & b & Ha & Hb & N & C & E1 & E2). apply In_nth_error in Ha. apply In_nth_error in Hb. destruct Ha as [i Hi], Hb as [j Hj]. destruct (lt_eq_lt_dec i j) as [[L|L]|L].
      + exists (d_index a, d_index b). cbn [fst snd]. split.
        * apply in_map_iff. exists (a, b). split; [reflexivity|]. apply filter_In. split; [apply combinations2_in; eauto|]. now apply within_iff.
        * rewrite E1, E2, !Nat.eqb_refl. reflexivity.
      + subst. congruence.
      + exists (d_index b, d_index a). cbn [fst snd]. split.
        * apply in_map_iff. exists (b, a). split; [reflexivity|]. apply filter_In. split; [apply combinations2_in; eauto|]. now apply within_iff, close_sym.
        * rewrite E1, E2, !Nat.eqb_refl. apply orb_true_r.
  Qed.
  Lemma edge_node u v : edge es u v = true -> In u G.
  Proof.
    unfold edge. rewrite existsb_exists. intros (e & He & H). unfold G, graph_nodes. apply nodup_In, in_app_iff. right. apply in_flat_map. exists e. split; [assumption|]. apply orb_true_iff in H. destruct H as [H|H]; apply andb_true_iff in H; destruct H as [H1 H2]; apply Nat.eqb_eq in H1; apply Nat.eqb_eq in H2; subst; [now left|right; now left].
  Qed.
  Lemma G_nodup : NoDup G.
  Proof. apply NoDup_nodup. Qed.
  Lemma K_spec : are_components (edge es) G K.
  Proof. apply components_spec; [exact edge_sym|exact G_nodup]. Qed.
  Lemma linked_joined a b : linked dx dy dz df a b -> joined (edge es) G (d_index a) (d_index b).
  Proof using uniq.
    intros C. induction C as [x y (Hx & Hy & C)|x|x y z _ IH1 _ IH2]; [|apply rt_refl|eapply rt_trans; eassumption].
    destruct (Nat.eq_dec (d_index x) (d_index y)) as [E|E]; [rewrite E; apply rt_refl|]. assert (x <> y) by congruence.
    assert (D : edge es (d_index x) (d_index y) = true) by (apply edge_iff; exists x, y; auto 7). apply rt_step. split; [now apply edge_node in D|]. split; [|assumption]. apply edge_sym in D. now apply edge_node in D.
  Qed.
  Lemma joined_linked u v : joined (edge es) G u v -> forall a, In a df -> d_index a = u -> exists b, In b df /\ d_index b = v /\ linked dx dy dz df a b.
  Proof using uniq.
    intros C. apply clos_rt_rt1n in C. induction C as [x|x y z (Hx & Hy & E) C IH]; intros a Ha L.
    - exists a. split; [assumption|]. split; [assumption|apply rt_refl].
    - apply edge_iff in E. destruct E as (p & q & Hp & Hq & N & D & <- & <-). assert (a = p) by (now apply index_inj). subst p. destruct (IH q Hq eq_refl) as (b & Hb & Eb & Lb). exists b. split; [assumption|]. split; [assumption|]. eapply rt_trans; [apply rt_step|exact Lb]. auto.
  Qed.
  Lemma joined_node u v : joined (edge es) G u v -> u <> v -> exists a, In a df /\ d_index a = u.
  Proof using uniq.
    intros C. apply clos_rt_rt1n in C. destruct C as [|y z (Hx & Hy & E) C]; [congruence|]. intros _. apply edge_iff in E. destruct E as (p & q & Hp & Hq & N & D & <- & <-). eauto.
  Qed.
  Lemma joined_in u v : joined (edge es) G u v -> In u G -> In v G.
  Proof. intros C. induction C as [x y (Hx & Hy & E)|x|]; auto. Qed.
  (** the nodes of a component are the labels of the hits linked to one of them *)
  Lemma comp_cluster k h : In k K -> In h df -> In (d_index h) k -> forall u, In u k <-> exists h', In h' df /\ linked dx dy dz df h h' /\ d_index h' = u.
  Proof using uniq.
    intros Hk Hh I u. destruct K_spec as (P & NE & S).
    assert (inG : forall v, In v k -> In v G) by (intros v Hv; eapply Permutation_in; [exact P|]; apply in_concat; eauto).
    split.
    - intros Hu. assert (J : joined (edge es) G (d_index h) u) by (apply S; auto; exists k; auto). destruct (joined_linked _ _ J h Hh eq_refl) as (b & Hb & E & L). exists b. auto.
    - intros (h' & Hh' & L & <-). apply linked_joined in L. assert (I' := joined_in _ _ L (inG _ I)). apply S in L; [|now apply inG|assumption]. destruct L as (k' & Hk' & I1 & I2).
      assert (E : k = k'); [|now subst]. eapply same_block_eq; [|exact Hk|exact Hk'|exact I|exact I1]. eapply Permutation_NoDup; [symmetry; exact P|exact G_nodup].
  Qed.
  Lemma K_nodup k : In k K -> NoDup k.
  Proof.
    intros Hk. destruct K_spec as (P & _ & _). assert (N : NoDup (concat K)) by (eapply Permutation_NoDup; [symmetry; exact P|exact G_nodup]). clear P. apply in_split in Hk. destruct Hk as (l1 & l2 & E). rewrite E, concat_app in N. cbn in N.
    apply NoDup_app_remove_l in N. now apply NoDup_app_remove_r in N.
  Qed.
  Definition hit_of (u : nat) : list dhit := filter (fun h => (d_index h =? u)%nat) df.
  Lemma hit_of_label h : In h df -> hit_of (d_index h) = [h].
  Proof using uniq.
    intros Hh. unfold hit_of. clear es G K. induction df as [|a l IH]; [destruct Hh|]. cbn in uniq. inversion uniq as [|x y N U]; subst. cbn. destruct Hh as [->|Hh].
    - rewrite Nat.eqb_refl. f_equal. apply filter_none_in. intros b Hb. apply Nat.eqb_neq. intros E. apply N. rewrite <- E. now apply in_map.
    - assert ((d_index a =? d_index h)%nat = false) as ->; [|now apply IH]. apply Nat.eqb_neq. intros E. apply N. rewrite E. now apply in_map.
  Qed.
  Variable nhits : Z.
  Hypothesis several : (1 <= nhits)%Z.
  Let big := filter (fun k => (nhits <? Z.of_nat (length k))%Z) K.
  Lemma big_labels k u : In k big -> In u k -> exists h, In h df /\ d_index h = u.
  Proof using uniq several.
    intros Hk Hu. apply filter_In in Hk. destruct Hk as [Hk L]. apply Z.ltb_lt in L. assert (N := K_nodup k Hk).
    destruct K_spec as (P & NE & S).
    assert (inG : forall v, In v k -> In v G) by (intros v Hv; eapply Permutation_in; [exact P|]; apply in_concat; eauto).
    assert (X : exists v, In v k /\ u <> v).
    { destruct k as [|a [|b k]]; cbn in L; try lia. inversion N as [|x y N1 N2]; subst. destruct (Nat.eq_dec u a) as [->|D]; [|exists a; cbn; auto]. exists b. split; [cbn; auto|]. intros ->. apply N1. now left. }
    destruct X as (v & Hv & D). eapply joined_node; [|exact D]. apply S; auto. exists k. auto.
  Qed.
  Lemma big_cluster k h : In k big -> In h df -> In (d_index h) k -> in_large_cluster dx dy dz nhits df h.
  Proof using uniq several.
    intros Hk Hh I. assert (Hk' := Hk). apply filter_In in Hk'. destruct Hk' as [Hk' L]. apply Z.ltb_lt in L.
    assert (C := comp_cluster k h Hk' Hh I). assert (X : exists cl, map d_index cl = k /\ forall x, In x cl -> In x df).
    { assert (B := fun u => big_labels k u Hk). clear - B. induction k as [|u k IH]; [exists []; cbn; auto; split; [reflexivity|intros x []]|]. destruct IH as (cl & E & Hcl); [intros v Hv; apply B; now right|]. destruct (B u (or_introl eq_refl)) as (a & Ha & <-). exists (a :: cl). cbn. rewrite E. split; [reflexivity|]. intros x [<-|Hx]; auto. }
    destruct X as (cl & E & Hcl). exists cl. split; [eapply NoDup_map_inv; rewrite E; now apply K_nodup|]. split.
    - intros h'. split.
      + intros H'. split; [auto|]. assert (I' : In (d_index h') k) by (rewrite <- E; now apply in_map). apply C in I'. destruct I' as (b & Hb & Lb & Eb). assert (b = h') by (apply index_inj; auto). now subst.
      + intros (H1 & H2). assert (I' : In (d_index h') k) by (apply C; eauto). rewrite <- E in I'. apply in_map_iff in I'. destruct I' as (b & Eb & Hb). assert (b = h') by (apply index_inj; auto). now subst.
    - rewrite <- (map_length d_index), E. assumption.
  Qed.
  Lemma cluster_big h : In h df -> in_large_cluster dx dy dz nhits df h -> exists k, In k big /\ In (d_index h) k.
  Proof using uniq several.
    intros Hh (cl & N & C & L). destruct K_spec as (P & NE & S).
    assert (X : exists b, In b cl /\ b <> h).
    { assert (exists b, In b cl /\ b <> h) as X; [|exact X]. assert (h_dec : forall b, In b cl -> b = h \/ b <> h). { intros b Hb. destruct (Nat.eq_dec (d_index b) (d_index h)) as [E|E]; [left; apply index_inj; auto; now apply C in Hb|right; congruence]. }
      destruct cl as [|a [|b cl]]; cbn in L; try lia. inversion N as [|x y N1 N2]; subst. destruct (h_dec a (or_introl eq_refl)) as [->|D]; [|exists a; cbn; auto]. exists b. split; [cbn; auto|]. intros ->. apply N1. now left. }
    destruct X as (b & Hb & D). apply C in Hb. destruct Hb as [Hb Lb]. assert (J := linked_joined _ _ Lb).
    assert (I : In (d_index h) G). { apply clos_rt_rt1n in J. inversion J as [E|y z (Hx & _ & _) _]; [|assumption]. exfalso. apply D. apply index_inj; auto. }
    assert (I' := I). eapply Permutation_in in I'; [|symmetry; exact P]. apply in_concat in I'. destruct I' as (k & Hk & Ik). exists k. split; [|assumption].
    apply filter_In. split; [assumption|]. apply Z.ltb_lt.
    assert (Permutation k (map d_index cl)) as Pk.
    { apply NoDup_Permutation; [now apply K_nodup| |].
      - assert (Hcl : forall x, In x cl -> In x df) by (intros x Hx; now apply C in Hx). clear - N Hcl uniq. induction N as [|a l Na N IH]; cbn; constructor; [|apply IH; intros; apply Hcl; now right]. intros I. apply in_map_iff in I. destruct I as (b & E & Hb). apply Na. assert (b = a) by (apply index_inj; auto; [apply Hcl; now right|apply Hcl; now left]). now subst.
      - intros u. rewrite (comp_cluster k h Hk Hh Ik). rewrite in_map_iff. split; intros (x & H).
        + exists x. split; [tauto|]. apply C. tauto.
        + exists x. destruct H as [H1 H2]. apply C in H2. tauto. }
    apply Permutation_length in Pk. rewrite map_length in Pk. lia.
  Qed.
  Lemma loc_rows labels : (forall u, In u labels -> exists h, In h df /\ d_index h = u) -> NoDup labels ->
    exists kept, rmap (loc df) labels = Ok (map (fun h => [h]) kept) /\ map d_index kept = labels /\ forall h, In h kept -> In h df.
  Proof using uniq.
    induction labels as [|u labels IH]; intros H N; [exists []; cbn; repeat split; auto; intros h []|]. inversion N; subst. destruct IH as (kept & E1 & E2 & E3); [intros; apply H; now right|assumption|]. destruct (H u (or_introl eq_refl)) as (h & Hh & <-). exists (h :: kept). cbn [rmap map]. unfold loc at 1. fold (hit_of (d_index h)). rewrite (hit_of_label h Hh), E1. cbn [rbind]. rewrite E2. repeat split; auto. intros x [<-|Hx]; auto.
  Qed.
  Lemma kept_hits : exists kept, rmap (loc df) (concat big) = Ok (map (fun h => [h]) kept) /\ NoDup kept /\ forall h, In h kept <-> In h df /\ in_large_cluster dx dy dz nhits df h.
  Proof using uniq several.
    destruct K_spec as (P & NE & S). assert (N : NoDup (concat K)) by (eapply Permutation_NoDup; [symmetry; exact P|exact G_nodup]).
    assert (Nb : NoDup (concat big)).
    { unfold big. clear - N. induction K as [|k l IH]; cbn; [constructor|]. cbn in N. destruct (nhits <? _)%Z; [|apply IH; now apply NoDup_app_remove_l in N]. cbn. 
      assert (Hin : forall x, In x (concat (filter (fun k => (nhits <? Z.of_nat (length k))%Z) l)) -> In x (concat l)) by (intros x Hx; apply in_concat in Hx; destruct Hx as (b & Hb & Hx); apply filter_In in Hb; apply in_concat; exists b; tauto).
      assert (M : NoDup (concat (filter (fun k => (nhits <? Z.of_nat (length k))%Z) l))) by (apply IH; now apply NoDup_app_remove_l in N). clear IH. induction k as [|a k IH]; cbn; [assumption|]. cbn in N. inversion N; subst. constructor; [|now apply IH]. rewrite in_app_iff in *. intros [C|C]; apply H1; auto. }
    destruct (loc_rows (concat big)) as (kept & E1 & E2 & E3); [|assumption|].
    - intros u Hu. apply in_concat in Hu. destruct Hu as (k & Hk & Hu). eapply big_labels; eassumption.
    - exists kept. split; [assumption|]. split; [eapply NoDup_map_inv; now rewrite E2|]. intros h. split.
      + intros Hh. split; [auto|]. assert (I : In (d_index h) (concat big)) by (rewrite <- E2; now apply in_map). apply in_concat in I. destruct I as (k & Hk & I). eapply big_cluster; eauto.
      + intros [Hh L]. destruct (cluster_big h Hh L) as (k & Hk & I). assert (I' : In (d_index h) (concat big)) by (apply in_concat; eauto). rewrite <- E2 in I'. apply in_map_iff in I'. destruct I' as (b & Eb & Hb). assert (b = h) by (apply index_inj; auto). now subst.
  Qed.
End Clusters.
Lemma concat_singletons {A} (l : list A) : concat (map (fun a => [a]) l) = l.
Proof. induction l as [|a l IH]; cbn; [reflexivity|now rewrite IH]. Qed.
(** dropping isolated clusters keeps exactly the hits in a cluster of more than [nhits] hits; it fails if there are none *)
Theorem C43_clusters dx dy dz nhits n df : ~ dx == 0 -> ~ dy == 0 -> ~ dz == 0 -> NoDup (map d_index df) -> (1 <= nhits)%Z ->
  (forall out, drop_isolated_clusters dx dy dz nhits n df = Ok out ->
     exists kept, kept <> [] /\ NoDup kept /\ (forall h, In h kept <-> In h df /\ in_large_cluster dx dy dz nhits df h) /\ redistributed n df kept out)
  /\ (drop_isolated_clusters dx dy dz nhits n df = Err TypeError <-> forall h, In h df -> ~ in_large_cluster dx dy dz nhits df h)
  /\ (positive n df -> (exists h, In h df /\ in_large_cluster dx dy dz nhits df h) -> exists out, drop_isolated_clusters dx dy dz nhits n df = Ok out).
Proof.
  intros X Y Z U L. destruct (kept_hits dx dy dz df U nhits L) as (kept & R & N & S). unfold drop_isolated_clusters.
  destruct (Qeqb_spec dx 0) as [C|_]; [contradiction|]. destruct (Qeqb_spec dy 0) as [C|_]; [contradiction|]. destruct (Qeqb_spec dz 0) as [C|_]; [contradiction|]. cbn [orb].
  assert (B : filter (fun k => (nhits <? Z.of_nat (length k))%Z) (components (edge (close_pairs dx dy dz df)) (graph_nodes df (close_pairs dx dy dz df))) = [] <-> kept = []).
  { split; intros E.
    - rewrite E in R. cbn in R. injection R as R. now destruct kept.
    - destruct (filter _ _) as [|k ks] eqn:F; [reflexivity|]. exfalso. subst kept. cbn in R.
      assert (Hk : In k (filter (fun k => (nhits <? Z.of_nat (length k))%Z) (components (edge (close_pairs dx dy dz df)) (graph_nodes df (close_pairs dx dy dz df))))) by (rewrite F; now left).
      assert (NK : k <> []). { intros ->. apply filter_In in Hk. destruct Hk as [_ Hk]. apply Z.ltb_lt in Hk. cbn in Hk. lia. }
      destruct k as [|u k]; [congruence|]. destruct (big_labels dx dy dz df U nhits L _ u Hk (or_introl eq_refl)) as (h & Hh & E). apply (S h). split; [assumption|]. eapply big_cluster; [assumption|eassumption|exact Hk|assumption|rewrite E; now left]. }
  assert (In_kept : kept = [] <-> forall h, In h df -> ~ in_large_cluster dx dy dz nhits df h).
  { split; [intros -> h Hh C; apply (S h); auto|]. intros H. destruct kept as [|h l]; [reflexivity|]. exfalso. destruct (proj1 (S h) (or_introl eq_refl)) as [H1 H2]. exact (H h H1 H2). }
  destruct (filter _ _) as [|k ks] eqn:F.
  - assert (KE : kept = []) by now apply B. split; [discriminate|]. split; [now rewrite <- In_kept|]. intros _ (h & H1 & H2). exfalso. assert (I := proj2 (S h) (conj H1 H2)). rewrite KE in I. destruct I.
  - rewrite R. cbn [rbind]. rewrite concat_singletons. assert (NE : kept <> []) by (intros C; apply B in C; discriminate). split; [|split].
    + intros out E. exists kept. split; [assumption|]. split; [assumption|]. split; [exact S|]. now apply redistribute_spec.
    + split; [|intros H; apply In_kept in H; contradiction]. unfold redistribute. destruct kept; [congruence|]. destruct (existsb _ _); discriminate.
    + intros P _. apply redistribute_ok. eapply positive_sub; [|exact P]. intros h Hh. now apply S in Hh.
Qed.
Print Assumptions C43_clusters.

(** the rows of a peak in the table of the event are the result of the function for the hits of the peak, apart from the labels *)
Definition relabelled (h h' : dhit) : Prop := d_peak h' = d_peak h /\ dX h' = dX h /\ dY h' = dY h /\ dZ h' = dZ h /\ dQ h' = dQ h /\ dvars h' = dvars h.
Lemma renumber_filter (p : dhit -> bool) l : (forall h h', relabelled h h' -> p h = p h') -> Forall2 relabelled (filter p l) (filter p (renumber l)).
Proof.
  intros Hp. unfold renumber, mapi. generalize 0%nat. induction l as [|h l IH]; intros i; cbn; [constructor|]. rewrite <- (Hp h {| d_index := i; d_peak := d_peak h; dX := dX h; dY := dY h; dZ := dZ h; dQ := dQ h; dvars := dvars h |}) by (unfold relabelled; cbn; auto 10).
  destruct (p h); [|apply IH]. constructor; [unfold relabelled; cbn; auto 10|apply IH].
Qed.
Lemma filter_parts (keys : list key) (parts : list (list dhit)) k : distinct_list keys -> Forall2 (fun key part => forall h, In h part -> same_key key (d_peak h)) keys parts ->
  forall key part, In (key, part) (combine keys parts) -> same_key k key -> filter (fun h => key_eqb k (d_peak h)) (concat parts) = part.
Proof.
  intros D F. induction F as [|ky pt keys parts H F IH]; intros key part I E; [destruct I|]. cbn in D. inversion D as [|x y D1 D2]; subst. cbn [concat combine] in *. rewrite filter_app. destruct I as [I|I].
  - injection I as <- <-. rewrite filter_all_in by (intros h Hh; apply key_eqb_iff; eapply same_trans; [exact E|now apply H]). rewrite filter_none_in; [apply app_nil_r|].
    intros h Hh. apply key_eqb_false. intros C. apply in_concat in Hh. destruct Hh as (pt' & Hp & Hh).
    assert (X : exists k', In k' keys /\ same_key k' (d_peak h)). { clear - F Hp Hh. induction F as [|a b l m R F IH]; [destruct Hp|]. destruct Hp as [->|Hp]; [exists a; split; [now left|now apply R]|]. destruct (IH Hp) as (k' & I & S). exists k'. split; [now right|assumption]. }
    destruct X as (k' & I' & S'). rewrite Forall_forall in D1. apply (D1 k' I'). eapply same_trans; [apply same_sym; exact E|]. eapply same_trans; [exact C|now apply same_sym].
  - rewrite filter_none_in; [cbn; eapply IH; eauto|]. intros h Hh. apply key_eqb_false. intros C. rewrite Forall_forall in D1. apply (D1 key); [eapply in_combine_l; exact I|]. eapply same_trans; [apply (H h Hh)|]. eapply same_trans; [apply same_sym; exact C|exact E].
Qed.
Lemma per_peak_spec f df out : (forall hits r, f hits = Ok r -> forall h, In h r -> exists h0, In h0 hits /\ d_peak h = d_peak h0) -> per_peak f df = Ok out ->
  forall k hits rows, picks d_peak k df hits -> picks d_peak k out rows -> (hits = [] /\ rows = []) \/ exists r, f hits = Ok r /\ Forall2 relabelled r rows.
Proof.
  intros Hf E k hits rows P1 P2. apply picks_filter in P1. apply picks_filter in P2. unfold per_peak in E. destruct df as [|h0 df0] eqn:D; [injection E as <-; left; subst; auto|]. rewrite <- D in *. clear D h0 df0.
  destruct (rmap _ _) as [ls|] eqn:R; [|discriminate]. cbn [rbind] in E. injection E as <-. apply rmap_forall2 in R.
  assert (F : Forall2 (fun key part => forall h, In h part -> same_key key (d_peak h)) (group_keys (map d_peak df)) ls).
  { eapply Forall2_mono; [|exact R]. intros key part _ Ep h Hh. destruct (Hf _ _ Ep h Hh) as (h0 & H0 & ->). apply filter_In in H0. now apply key_eqb_iff. }
  assert (Q : Forall2 relabelled (filter (fun h => key_eqb k (d_peak h)) (concat ls)) rows) by (subst rows; apply renumber_filter; intros h h' (-> & _); reflexivity).
  destruct hits as [|h hits'] eqn:EH.
  - left. split; [reflexivity|]. rewrite filter_none_in in Q; [now inversion Q|]. intros a Ha. apply key_eqb_false. intros C. apply in_concat in Ha. destruct Ha as (part & Hp & Ha).
    assert (X : exists h0, In h0 df /\ d_peak a = d_peak h0). { clear - R Hp Ha Hf. induction R as [|x y l m Exy R IH]; [destruct Hp|]. destruct Hp as [->|Hp]; [|auto]. destruct (Hf _ _ Exy a Ha) as (h0 & H0 & E0). apply filter_In in H0. exists h0. tauto. }
    destruct X as (h0 & H0 & E0). rewrite E0 in C. assert (I : In h0 (filter (fun a => key_eqb k (d_peak a)) df)) by (apply filter_In; split; [assumption|now apply key_eqb_iff]). rewrite <- P1 in I. destruct I.
  - right. rewrite <- EH in *. assert (Hh : In h hits) by (rewrite EH; now left). rewrite P1 in Hh. apply filter_In in Hh. destruct Hh as [Hh Ek]. apply key_eqb_iff in Ek. destruct (group_keys_covers (map d_peak df) (d_peak h)) as (key & Ikey & Skey); [now apply in_map|].
    assert (S : same_key k key) by (eapply same_trans; eassumption).
    assert (X : exists part, In (key, part) (combine (group_keys (map d_peak df)) ls) /\ f (filter (fun h => key_eqb key (d_peak h)) df) = Ok part).
    { clear - R Ikey. induction R as [|x y l m Exy R IH]; [destruct Ikey|]. destruct Ikey as [->|I]; [exists y; split; [now left|assumption]|]. destruct (IH I) as (part & I' & E'). exists part. split; [now right|assumption]. }
    destruct X as (part & Ipart & Epart). rewrite (filter_parts _ _ k (group_keys_distinct _) F key part Ipart S) in Q. exists part. split; [|assumption].
    rewrite P1, <- Epart. f_equal. apply filter_ext. intros a. now apply key_eqb_ext.
Qed.
Lemma redistributed_relabel n all kept r rows : redistributed n all kept r -> Forall2 relabelled r rows -> redistributed n all kept rows.
Proof.
  intros [NZ F] R. split; [assumption|]. clear NZ. revert rows R. set (P := total) in *. clearbody P. set (c := fun i => P i all / P i kept) in *.
  assert (F' : Forall2 (fun h h' => same_hit h h' /\ forall i, (i < n)%nat -> nth i (dvars h') 0 == nth i (dvars h) 0 * c i) kept r) by exact F. change (forall rows, Forall2 relabelled r rows -> Forall2 (fun h h' => same_hit h h' /\ forall i, (i < n)%nat -> nth i (dvars h') 0 == nth i (dvars h) 0 * c i) kept rows).
  clear F. clearbody c. induction F' as [|h h' l m [S H] F IH]; intros rows R; inversion R as [|x y l' m' Rxy R']; subst; constructor; [|auto]. destruct Rxy as (R1 & R2 & R3 & R4 & R5 & R6). unfold same_hit in *. rewrite R1, R2, R3, R4, R5, R6. auto.
Qed.
Lemma redistribute_peaks n all pass out : redistribute n all pass = Ok out -> forall h, In h out -> exists h0, In h0 pass /\ d_peak h = d_peak h0.
Proof.
  intros E. apply redistribute_spec in E. destruct E as [_ F]. intros h Hh. revert h Hh. set (P := fun h h' => _) in F. assert (HP : forall h h', P h h' -> d_peak h' = d_peak h) by (intros h h' [S _]; apply S). clearbody P. induction F as [|x y l m R F IH]; intros h Hh; [destruct Hh|]. destruct Hh as [<-|Hh]; [exists x; split; [now left|now apply HP]|]. destruct (IH h Hh) as (h0 & I & E). exists h0. split; [now right|assumption].
Qed.
Lemma redistributed_nil n : redistributed n [] [] [].
Proof. split; [congruence|constructor]. Qed.
(** the charge cut of an event is the cut of each of its peaks *)
Theorem C43_event_cut q n df out : cut_over_Q q n df = Ok out -> peak_by_peak (fun hits rows => exists kept, survivors (fun h => q < dQ h) hits kept /\ redistributed n hits kept rows) df out.
Proof.
  intros E k hits rows P1 P2. destruct (per_peak_spec (cut_and_redistribute q n) df out) with (k := k) (hits := hits) (rows := rows) as [[-> ->]|(r & Er & Rr)]; auto.
  - intros l r Er h Hh. unfold cut_and_redistribute in Er. destruct (redistribute_peaks _ _ _ _ Er h Hh) as (h0 & I & Eh). apply filter_In in I. exists h0. tauto.
  - exists []. split; [constructor|apply redistributed_nil].
  - apply C43_cut in Er. destruct Er as (kept & S & Rd). exists kept. split; [assumption|]. eapply redistributed_relabel; eassumption.
Qed.
Print Assumptions C43_event_cut.
(** dropping isolated sensors of an event drops those of each of its peaks *)
Theorem C43_event_sensors dx dy nhits n df out : drop_isolated [dx; dy] nhits n df = Ok out ->
  peak_by_peak (fun hits rows => exists kept, survivors (has_neighbour dx dy hits) hits kept /\ redistributed n hits kept rows) df out.
Proof.
  intros E k hits rows P1 P2. cbn [drop_isolated] in E. destruct (per_peak_spec (drop_isolated_sensors dx dy n) df out) with (k := k) (hits := hits) (rows := rows) as [[-> ->]|(r & Er & Rr)]; auto.
  - intros l r Er h Hh. rewrite sensors_eq in Er. destruct (redistribute_peaks _ _ _ _ Er h Hh) as (h0 & I & Eh). apply filter_In in I. exists h0. tauto.
  - exists []. split; [constructor|apply redistributed_nil].
  - apply C43_sensors in Er. destruct Er as (kept & S & Rd). exists kept. split; [assumption|]. eapply redistributed_relabel; eassumption.
Qed.
Print Assumptions C43_event_sensors.
Lemma clusters_peaks dx dy dz nhits n l r : drop_isolated_clusters dx dy dz nhits n l = Ok r -> forall h, In h r -> exists h0, In h0 l /\ d_peak h = d_peak h0.
Proof.
  unfold drop_isolated_clusters. destruct (_ || _)%bool; [discriminate|]. destruct (filter _ _) as [|k ks]; [discriminate|]. destruct (rmap _ _) as [rows|] eqn:R; [|discriminate]. cbn [rbind]. intros E h Hh. destruct (redistribute_peaks _ _ _ _ E h Hh) as (h0 & I & Eh). exists h0. split; [|assumption].
  apply rmap_forall2 in R. apply in_concat in I. destruct I as (row & Ir & I). clear - R Ir I. induction R as [|u row' us rs L R IH]; [destruct Ir|]. destruct Ir as [->|Ir]; [|auto]. unfold loc in L. assert (X : filter (fun h => (d_index h =? u)%nat) l = row) by (destruct (filter _ l); [discriminate|congruence]). rewrite <- X in I. apply filter_In in I. tauto.
Qed.
(** dropping isolated clusters of an event drops those of each of its peaks *)
Theorem C43_event_clusters dx dy dz nhits n df out : ~ dx == 0 -> ~ dy == 0 -> ~ dz == 0 -> NoDup (map d_index df) -> (1 <= nhits)%Z -> drop_isolated [dx; dy; dz] (Some nhits) n df = Ok out ->
  peak_by_peak (fun hits rows => hits = [] /\ rows = []
     \/ exists kept, kept <> [] /\ NoDup kept /\ (forall h, In h kept <-> In h hits /\ in_large_cluster dx dy dz nhits hits h) /\ redistributed n hits kept rows) df out.
Proof.
  intros X Y Z U L E k hits rows P1 P2. cbn [drop_isolated] in E. destruct (per_peak_spec (drop_isolated_clusters dx dy dz nhits n) df out) with (k := k) (hits := hits) (rows := rows) as [[-> ->]|(r & Er & Rr)]; auto.
  - intros l r Er h Hh. eapply clusters_peaks; eassumption.
  - right. assert (Uh : NoDup (map d_index hits)). { apply picks_filter in P1. subst hits. clear - U. induction df as [|a l IH]; cbn; [constructor|]. cbn in U. inversion U; subst. destruct (key_eqb k (d_peak a)); [|auto]. cbn. constructor; [|auto]. intros C. apply H1. apply in_map_iff in C. destruct C as (b & <- & Hb). apply filter_In in Hb. now apply in_map. }
    destruct (C43_clusters dx dy dz nhits n hits X Y Z Uh L) as (C & _ & _). destruct (C r Er) as (kept & K1 & K2 & K3 & K4). exists kept. repeat split; try assumption; try (now apply K3); try (now apply K4). eapply redistributed_relabel; eassumption.
Qed.
Print Assumptions C43_event_clusters.
(** with positive variables cutting and dropping sensors of an event always gives a result, and so does dropping clusters if each peak has a large one *)
Theorem C43_event_total n df : positive n df ->
  (forall q, exists out, cut_over_Q q n df = Ok out) /\ (forall dx dy nhits, exists out, drop_isolated [dx; dy] nhits n df = Ok out)
  /\ forall dx dy dz nhits, ~ dx == 0 -> ~ dy == 0 -> ~ dz == 0 -> NoDup (map d_index df) -> (1 <= nhits)%Z ->
     (forall k hits, picks d_peak k df hits -> hits <> [] -> exists h, In h hits /\ in_large_cluster dx dy dz nhits hits h) -> exists out, drop_isolated [dx; dy; dz] (Some nhits) n df = Ok out.
Proof.
  intros P.
  assert (T : forall f, (forall k, In k (group_keys (map d_peak df)) -> exists r, f (filter (fun h => key_eqb k (d_peak h)) df) = Ok r) -> exists out, per_peak f df = Ok out).
  { intros f Hf. unfold per_peak. destruct df as [|h l] eqn:D; [eexists; reflexivity|]. rewrite <- D in *. destruct (rmap_ok (fun k => f (filter (fun h => key_eqb k (d_peak h)) df)) (group_keys (map d_peak df)) Hf) as (bs & E & _). rewrite E. eexists. reflexivity. }
  assert (Pk : forall k, positive n (filter (fun h => key_eqb k (d_peak h)) df)) by (intros k; eapply positive_sub; [|exact P]; intros h Hh; apply filter_In in Hh; tauto).
  split; [|split].
  - intros q. apply T. intros k _. now apply C43_total.
  - intros dx dy nhits. apply T. intros k _. now apply C43_total.
  - intros dx dy dz nhits X Y Z U L H. apply T. intros k Hk.
    assert (Uh : NoDup (map d_index (filter (fun h => key_eqb k (d_peak h)) df))). { clear - U. induction df as [|a l IH]; cbn; [constructor|]. cbn in U. inversion U; subst. destruct (key_eqb k (d_peak a)); [|auto]. cbn. constructor; [|auto]. intros C. apply H1. apply in_map_iff in C. destruct C as (b & <- & Hb). apply filter_In in Hb. now apply in_map. }
    destruct (C43_clusters dx dy dz nhits n _ X Y Z Uh L) as (_ & _ & C). apply C; [apply Pk|]. apply (H k); [now apply picks_filter|].
    apply group_keys_in in Hk. apply in_map_iff in Hk. destruct Hk as (h & E & Hh). intros N. assert (I : In h (filter (fun h => key_eqb k (d_peak h)) df)) by (apply filter_In; split; [assumption|]; apply key_eqb_iff; rewrite E; apply same_refl). rewrite N in I. destruct I.
Qed.
Print Assumptions C43_event_total.
(** other numbers of distances and a missing number of hits are refused *)
Theorem C43_event_errors distance nhits n df : (length distance <> 2 /\ length distance <> 3)%nat -> drop_isolated distance nhits n df = Err ValueError.
Proof. intros [A B]. destruct distance as [|a [|b [|c [|d l]]]]; cbn in *; try reflexivity; lia. Qed.
Theorem C43_event_missing dx dy dz n df : drop_isolated [dx; dy; dz] None n df = Err TypeError.
Proof. reflexivity. Qed.

(** two hits close to each other and one apart, of one peak *)
Definition ex_hit (i : nat) (x q e : Q) : dhit := {| d_index := i; d_peak := [1]; dX := x; dY := 0; dZ := 0; dQ := q; dvars := [e] |}.
Definition ex_peak : list dhit := [ex_hit 0 0 5 10; ex_hit 1 1 6 30; ex_hit 2 9 1 20].
Definition rows_of (r : result (list dhit)) : result (list (Q * Q)) := rbind r (fun l => Ok (map (fun h => (dX h, Qred (nth 0 (dvars h) 0))) l)).
Example ex_cut : rows_of (cut_over_Q 2 1 ex_peak) = Ok [(0, 15); (1, 45)].
Proof. reflexivity. Qed.
Example ex_sensors : rows_of (drop_isolated [1; 1] None 1 ex_peak) = Ok [(0, 15); (1, 45)].
Proof. reflexivity. Qed.
Example ex_clusters : rows_of (drop_isolated [1; 1; 1] (Some 1%Z) 1 ex_peak) = Ok [(0, 15); (1, 45)] /\ NoDup (map d_index ex_peak) /\ positive 1 ex_peak.
Proof.
  split; [reflexivity|]. split; [repeat constructor; cbn; lia|]. intros h Hh i Hi. assert (i = 0)%nat by lia. subst. cbn in Hh. destruct Hh as [<-|[<-|[<-|[]]]]; cbn; lra.
Qed.
Example ex_no_cluster : drop_isolated [1; 1; 1] (Some 2%Z) 1 ex_peak = Err TypeError.
Proof. reflexivity. Qed.
(** C43, nhits = 0 is not covered: a node of the graph that is no label of a hit *)
Theorem C43_zero_hits_refuted : exists df, NoDup (map d_index df) /\ positive 1 df /\ drop_isolated_clusters 1 1 1 0 1 df = Err KeyError.
Proof.
  exists [ex_hit 7 0 5 10; ex_hit 8 1 6 30]. split; [repeat constructor; cbn; lia|]. split; [|reflexivity].
  intros h Hh i Hi. assert (i = 0)%nat by lia. subst. cbn in Hh. destruct Hh as [<-|[<-|[]]]; cbn; lra.
Qed.
Print Assumptions C43_zero_hits_refuted.
Print Assumptions C43_event_errors.
Print Assumptions C43_event_missing.
