(** Proofs about Dist_Model: the canonical form and the tables of generators. *)
From Coq Require Import Ascii String List ZArith Bool Lia Arith SpecFloat.
From Verif Require Import Base_Model Base_Proofs Float_Model Dist_Model Dist_Proofs.
Import ListNotations.
Open Scope Z_scope.

Lemma mem_spec : forall x l, mem x l = true <-> In x l.
Proof.
  induction l as [|y l IH]; cbn [mem In]; [split; [discriminate|contradiction]|]. rewrite orb_true_iff, IH.
  destruct (str_eqb_spec x y) as [->|N]; split; intros [A|A]; auto; try discriminate.
Qed.
Lemma repeats_spec : forall l seen, repeats seen l = false -> NoDup l /\ forall x, In x l -> ~ In x seen.
Proof.
  induction l as [|x l IH]; intros seen H; cbn [repeats] in H; [split; [constructor|contradiction]|].
  apply orb_false_iff in H. destruct H as [A B]. destruct (IH _ B) as [C D]. split.
  - constructor; [|assumption]. intros I. apply (D x I). left. reflexivity.
  - intros y [<-|I] S.
    + rewrite <- (mem_spec x seen) in S. congruence.
    + apply (D y I). right. assumption.
Qed.
Lemma repeats_complete : forall l seen, NoDup l -> (forall x, In x l -> ~ In x seen) -> repeats seen l = false.
Proof.
  induction l as [|x l IH]; intros seen N D; cbn [repeats]; [reflexivity|]. inversion N as [|? ? N1 N2]; subst. apply orb_false_iff. split.
  - destruct (mem x seen) eqn:M; [|reflexivity]. apply mem_spec in M. exfalso. exact (D x (or_introl eq_refl) M).
  - apply IH; [assumption|]. intros y I [<-|S]; [contradiction|]. exact (D y (or_intror I) S).
Qed.
Lemma validate_inv : forall c, validate_dist c = None -> NoDup (dc_fields c) /\
  (dc_pmf c = [] /\ dc_cdf c <> [] /\ validate_cdf (dc_cdf c) = None \/ dc_cdf c = [] /\ dc_pmf c <> [] /\ validate_pmf c = None).
Proof.
  intros c H. unfold validate_dist in H. destruct (dc_cdf c) as [|x l], (dc_pmf c) as [|y m]; try discriminate;
    destruct (repeats [] (dc_fields c)) eqn:R; try discriminate; (split; [now apply repeats_spec in R|]).
  - right. split; [reflexivity|]. split; [discriminate|assumption].
  - left. split; [reflexivity|]. split; [discriminate|assumption].
Qed.
Lemma pmf_loop_dims : forall n l c r, pmf_loop n c l = inr r -> Forall (fun p => length (pp_data p) = n) l.
Proof.
  induction l as [|p l IH]; intros c r H; cbn [pmf_loop] in H; [constructor|].
  destruct (Nat.eqb_spec (length (pp_data p)) n) as [E|]; cbn [negb] in H; [|discriminate]. constructor; eauto.
Qed.
Lemma validate_pmf_dims : forall c, validate_pmf c = None -> dc_fields c <> [] -> Forall (fun p => length (pp_data p) = length (dc_fields c)) (dc_pmf c).
Proof.
  intros c H N. unfold validate_pmf in H. destruct (dc_fields c) as [|f fs] eqn:E; [congruence|]. cbv zeta in H.
  destruct (pmf_loop _ _ _) eqn:L; [discriminate|]. eapply pmf_loop_dims. exact L.
Qed.

(** ** Field lookup *)
Lemma field_index_none : forall f names j found, field_index f j names found = None -> found = None /\ ~ In f names.
Proof.
  induction names as [|n r IH]; intros j found H; cbn [field_index] in H; [auto|].
  apply IH in H. destruct H as [A B]. destruct (str_eqb_spec n f) as [->|N]; [discriminate|]. split; [assumption|]. intros [->|I]; [congruence|contradiction].
Qed.
Lemma field_index_none_conv : forall f names j, ~ In f names -> forall found, field_index f j names found = found.
Proof.
  induction names as [|n r IH]; intros j N found; cbn [field_index]; [reflexivity|]. rewrite IH by (intros I; apply N; right; assumption).
  destruct (str_eqb_spec n f) as [->|]; [|reflexivity]. exfalso. apply N. left. reflexivity.
Qed.
Lemma field_index_some : forall f names j k, NoDup names -> field_index f j names None = Some k -> exists i, k = (j + i)%nat /\ nth_error names i = Some f.
Proof.
  induction names as [|n r IH]; intros j k N H; cbn [field_index] in H; [discriminate|]. inversion N as [|? ? N1 N2]; subst.
  destruct (str_eqb_spec n f) as [->|X].
  - rewrite field_index_none_conv in H by assumption. injection H as <-. exists O. split; [lia|reflexivity].
  - destruct (IH _ _ N2 H) as [i [-> E]]. exists (S i). split; [lia|assumption].
Qed.
Lemma field_map_ok : forall names fields js, NoDup names -> field_map names fields = inr js ->
  Forall2 (fun f j => nth_error names j = Some f) fields js.
Proof.
  induction fields as [|f r IH]; intros js N H; cbn [field_map] in H; [injection H as <-; constructor|].
  destruct (field_index f 0 names None) as [j|] eqn:E; [|discriminate]. destruct (field_map names r) as [e|js'] eqn:M; [discriminate|]. injection H as <-.
  constructor; [|eauto]. destruct (field_index_some _ _ _ _ N E) as [i [-> Hi]]. exact Hi.
Qed.
Lemma field_map_err : forall names fields e, field_map names fields = inl e -> In e fields /\ ~ In e names.
Proof.
  induction fields as [|f r IH]; intros e H; cbn [field_map] in H; [discriminate|].
  destruct (field_index f 0 names None) as [j|] eqn:E.
  - destruct (field_map names r) as [e'|js'] eqn:M; [|discriminate]. injection H as <-. destruct (IH _ eq_refl). split; [right|]; assumption.
  - injection H as <-. apply field_index_none in E. split; [left; reflexivity|tauto].
Qed.

(** ** Points with the fields in the new order *)
(** The value of field [f] in a point whose values are in the order [names]. *)
Definition field_value (names : list str) (d : list data_point) (f : str) (v : data_point) : Prop :=
  exists i, nth_error names i = Some f /\ nth_error d i = Some v.
Definition same_point (names fields : list str) (p p' : pmf_point) : Prop :=
  pp_pmf p' = pp_pmf p /\ length (pp_data p') = length fields
  /\ forall f v, In f fields -> (field_value fields (pp_data p') f v -> field_value names (pp_data p) f v)
                             /\ exists w, field_value fields (pp_data p') f w.
Lemma pick_ok : forall names fields js d, Forall2 (fun f j => nth_error names j = Some f) fields js -> length d = length names ->
  exists d', pick js d = Some d' /\ length d' = length fields
    /\ forall k f v, nth_error fields k = Some f -> nth_error d' k = Some v -> field_value names d f v.
Proof.
  intros names fields js d H L. induction H as [|f j fs js Hf Hr IH]; cbn [pick].
  - exists []. split; [reflexivity|]. split; [reflexivity|]. intros [|k] f v X; discriminate.
  - destruct IH as [d' [A [B C]]]. rewrite A.
    assert (j < length d)%nat by (rewrite L; apply nth_error_Some; congruence).
    destruct (nth_error d j) as [x|] eqn:E; [|apply nth_error_None in E; lia].
    exists (x :: d'). split; [reflexivity|]. split; [cbn [length]; lia|]. intros [|k] g v X Y; cbn [nth_error] in X, Y.
    + injection X as <-. injection Y as <-. exists j. auto.
    + eauto.
Qed.
Lemma canon_points_ok : forall names fields js l, Forall2 (fun f j => nth_error names j = Some f) fields js ->
  Forall (fun p => length (pp_data p) = length names) l ->
  exists ps, canon_points js l = Some ps /\ Forall2 (same_point names fields) l ps.
Proof.
  intros names fields js l H. induction 1 as [|p l Lp Ll IH]; cbn [canon_points]; [exists []; split; [reflexivity|constructor]|].
  destruct IH as [ps [A B]]. destruct (pick_ok _ _ _ _ H Lp) as [d [C [D E]]]. rewrite C, A.
  exists (mkPmf (pp_pmf p) d :: ps). split; [reflexivity|]. constructor; [|assumption]. split; [reflexivity|]. cbn [pp_data]. split; [assumption|].
  intros f v If. split.
  - intros [k [X Y]]. eauto.
  - apply In_nth_error in If. destruct If as [k X]. destruct (nth_error d k) as [w|] eqn:W.
    + exists w, k. auto.
    + exfalso. apply nth_error_None in W. assert (k < length fields)%nat by (apply nth_error_Some; congruence). lia.
Qed.
Lemma canon_points_nil : forall l, canon_points [] l = Some (map (fun p => mkPmf (pp_pmf p) []) l).
Proof. induction l as [|p l IH]; cbn [canon_points pick map]; [reflexivity|]. now rewrite IH. Qed.

(** ** The result of canonicalisation *)
Definition weights_from (prev : spec_float) (l : list cdf_point) (ps : list pmf_point) : Prop :=
  forall k p, nth_error ps k = Some p -> exists q, nth_error l k = Some q /\
    exists c, (k = O -> c = prev) /\ (forall j q', k = S j -> nth_error l j = Some q' -> c = f64_of_f32 (cp_cdf q')) /\ pp_pmf p = mass c q.
Lemma uniform_weights : forall n l prev lo ps, canon_uniform n prev lo l = Some ps -> weights_from prev l ps /\ length ps = length l.
Proof.
  induction l as [|q l IH]; intros prev lo ps H; cbn [canon_uniform] in H.
  - injection H as <-. split; [|reflexivity]. intros [|k] p X; discriminate.
  - destruct (in_int64 (cp_value q + 1)); [|discriminate]. destruct (canon_uniform n _ _ l) as [qs|] eqn:Q; [|discriminate]. injection H as <-.
    destruct (IH _ _ _ Q) as [A B]. split; [|cbn [length]; lia]. intros [|k] p X; cbn [nth_error] in X.
    + injection X as <-. exists q. split; [reflexivity|]. exists prev. split; [auto|]. split; [discriminate|reflexivity].
    + destruct (A k p X) as [q0 [E [c [C1 [C2 C3]]]]]. exists q0. split; [exact E|]. exists c. split; [discriminate|]. split; [|assumption].
      intros j q' Ej X'. injection Ej as <-. destruct k as [|k].
      * cbn in X'. injection X' as <-. auto.
      * eapply C2; [reflexivity|exact X'].
Qed.
Lemma exact_weights : forall n l prev, weights_from prev l (canon_exact n prev l) /\ length (canon_exact n prev l) = length l.
Proof.
  induction l as [|q l IH]; intros prev; cbn [canon_exact].
  - split; [|reflexivity]. intros [|k] p X; discriminate.
  - destruct (IH (f64_of_f32 (cp_cdf q))) as [A B]. split; [|cbn [length]; lia]. intros [|k] p X; cbn [nth_error] in X.
    + injection X as <-. exists q. split; [reflexivity|]. exists prev. split; [auto|]. split; [discriminate|reflexivity].
    + destruct (A k p X) as [q0 [E [c [C1 [C2 C3]]]]]. exists q0. split; [exact E|]. exists c. split; [discriminate|]. split; [|assumption].
      intros j q' Ej X'. injection Ej as <-. destruct k as [|k].
      * cbn in X'. injection X' as <-. auto.
      * eapply C2; [reflexivity|exact X'].
Qed.
Definition no_overflow (l : list cdf_point) : Prop := Forall (fun p => in_int64 (cp_value p) = true /\ cp_value p < int64_max) l.
Lemma no_overflow_S : forall p, in_int64 (cp_value p) = true /\ cp_value p < int64_max -> in_int64 (cp_value p + 1) = true.
Proof. intros p [A B]. unfold in_int64 in *. apply andb_true_iff in A. destruct A as [A1 A2]. apply Z.leb_le in A1, A2. apply andb_true_iff. split; apply Z.leb_le; lia. Qed.
Lemma uniform_defined : forall n l prev lo, no_overflow l -> exists ps, canon_uniform n prev lo l = Some ps.
Proof.
  induction l as [|q l IH]; intros prev lo N; cbn [canon_uniform]; [eauto|]. inversion N as [|? ? N1 N2]; subst.
  rewrite no_overflow_S by assumption. destruct (IH (f64_of_f32 (cp_cdf q)) (cp_value q + 1) N2) as [ps ->]. eauto.
Qed.
Lemma cdf_defined : forall u l prev lo, no_overflow l -> exists ps, cdf_to_pmf u prev lo l = Some ps.
Proof.
  induction l as [|q l IH]; intros prev lo N; cbn [cdf_to_pmf]; [eauto|]. inversion N as [|? ? N1 N2]; subst.
  rewrite no_overflow_S by assumption. destruct (IH (cp_cdf q) (cp_value q + 1) N2) as [ps ->]. eauto.
Qed.

Lemma canonical_pmf_spec : forall c fields, validate_dist c = None -> dc_cdf c = [] -> incl fields (dc_fields c) ->
  exists ps, canonical_dist c fields = CanonOk (mkDist (dc_name c) ps [] fields) /\ Forall2 (same_point (dc_fields c) fields) (dc_pmf c) ps.
Proof.
  intros c fields V C I. unfold canonical_dist. rewrite V, C. destruct (validate_inv _ V) as [N [[_ [X _]]|[_ [P W]]]]; [congruence|].
  destruct (field_map (dc_fields c) fields) as [f|js] eqn:M.
  { apply field_map_err in M. destruct M as [A B]. exfalso. apply B, I, A. }
  pose proof (field_map_ok _ _ _ N M) as F.
  assert (D : exists ps, canon_points js (dc_pmf c) = Some ps /\ Forall2 (same_point (dc_fields c) fields) (dc_pmf c) ps).
  { destruct (dc_fields c) as [|f0 fs] eqn:E.
    - assert (fields = []) by (destruct fields as [|f fs]; [reflexivity|]; exfalso; apply (I f); left; reflexivity). subst fields.
      inversion F; subst. rewrite canon_points_nil. eexists. split; [reflexivity|]. clear.
      induction (dc_pmf c) as [|p l IH]; constructor; [|assumption]. split; [reflexivity|]. split; [reflexivity|]. intros f v [].
    - apply canon_points_ok; [assumption|]. rewrite <- E. apply validate_pmf_dims; [assumption|congruence]. }
  destruct D as [ps [-> D]]. eauto.
Qed.
Lemma canonical_missing : forall c fields f, validate_dist c = None -> In f fields -> ~ In f (dc_fields c) ->
  exists g, canonical_dist c fields = CanonError (DEFieldMissing g) /\ In g fields /\ ~ In g (dc_fields c).
Proof.
  intros c fields f V I X. unfold canonical_dist. rewrite V. destruct (validate_inv _ V) as [N _].
  destruct (field_map (dc_fields c) fields) as [g|js] eqn:M.
  - exists g. split; [reflexivity|]. now apply field_map_err in M.
  - exfalso. apply field_map_ok in M; [|assumption]. apply In_nth_error in I. destruct I as [k K].
    assert (Y : exists j, nth_error js k = Some j /\ nth_error (dc_fields c) j = Some f).
    { revert k K. induction M as [|f0 j fs js A B IH]; intros [|k] K; try discriminate; cbn [nth_error] in K |- *; [injection K as <-; eauto|eauto]. }
    destruct Y as [j [_ Y]]. apply X. eapply nth_error_In. exact Y.
Qed.
Lemma canonical_cdf_spec : forall c fields first l, validate_dist c = None -> dc_cdf c = first :: l -> incl fields (dc_fields c) ->
  (SFeqb (cp_cdf first) f_zero = true ->
     match canonical_dist c fields with
     | CanonOk c' => exists ps, c' = mkDist (dc_name c) ps [] fields /\ canon_uniform (length fields) f_zero (cp_value first) l = Some ps
     | CanonError _ => False
     | CanonUndefined => ~ no_overflow l
     end)
  /\ (SFeqb (cp_cdf first) f_zero = false ->
     canonical_dist c fields = CanonOk (mkDist (dc_name c) (canon_exact (length fields) f_zero (first :: l)) [] fields)).
Proof.
  intros c fields first l V C I. unfold canonical_dist. rewrite V, C. destruct (validate_inv _ V) as [N [[P _]|[X _]]]; [|congruence].
  destruct (field_map (dc_fields c) fields) as [f|js] eqn:M.
  { apply field_map_err in M. destruct M as [A B]. exfalso. apply B, I, A. }
  rewrite P. cbn [canon_points app]. destruct (SFeqb (cp_cdf first) f_zero); split; intros E; try discriminate.
  - destruct (canon_uniform (length fields) f_zero (cp_value first) l) as [ps|] eqn:U; [eauto|].
    intros O. destruct (uniform_defined (length fields) l f_zero (cp_value first) O) as [ps Q]. congruence.
  - reflexivity.
Qed.

(** ** Tables of generators *)
Lemma make_generators_spec : forall canon l g idx g' idx',
  make_generators canon l g idx = GensOk g' idx' ->
  (forall c, In c l -> map_find (dc_name c) idx = None) /\ NoDup (map dc_name l)
  /\ length g' = (length g + length l)%nat
  /\ (forall i, (i < length g)%nat -> nth_error g' i = nth_error g i)
  /\ (forall i c, nth_error l i = Some c -> map_find (dc_name c) idx' = Some (length g + i)%nat
        /\ exists x, nth_error g' (length g + i) = Some x /\ make_generator canon c = GenOk x)
  /\ (forall n, ~ In n (map dc_name l) -> map_find n idx' = map_find n idx).
Proof.
  intros canon. induction l as [|c l IH]; intros g idx g' idx' H; cbn [make_generators] in H.
  - injection H as <- <-. split; [contradiction|]. split; [constructor|]. split; [cbn [length]; lia|]. split; [auto|]. split; [intros [|i]; discriminate|auto].
  - destruct (map_find (dc_name c) idx) eqn:F; [discriminate|]. destruct (make_generator canon c) as [x|e|] eqn:G; try discriminate.
    destruct (IH _ _ _ _ H) as [A [B [C [D [E K]]]]].
    assert (NI : ~ In (dc_name c) (map dc_name l)).
    { intros X. apply in_map_iff in X. destruct X as [c' [X1 X2]]. specialize (A c' X2). rewrite X1, map_find_set_same in A. discriminate. }
    split; [|split; [|split; [|split; [|split]]]].
    + intros c' [<-|X]; [assumption|]. specialize (A c' X). destruct (str_eqb_spec (dc_name c') (dc_name c)) as [->|Nq]; [assumption|].
      rewrite map_find_set_other in A by congruence. assumption.
    + cbn [map]. constructor; assumption.
    + rewrite C, app_length. cbn [length]. lia.
    + intros i Hi. rewrite D by (rewrite app_length; cbn [length]; lia). now rewrite nth_error_app1 by assumption.
    + intros [|i] c' N; cbn [nth_error] in N.
      * injection N as <-. rewrite K by assumption. rewrite map_find_set_same, Nat.add_0_r. split; [reflexivity|].
        exists x. split; [|assumption]. rewrite D by (rewrite app_length; cbn [length]; lia). rewrite nth_error_app2, Nat.sub_diag by lia. reflexivity.
      * destruct (E i c' N) as [E1 E2]. rewrite app_length in E1, E2. cbn [length] in E1, E2.
        replace (length g + S i)%nat with (length g + 1 + i)%nat by lia. auto.
    + intros n X. cbn [map In] in X. rewrite K by tauto. apply map_find_set_other. intros ->. apply X. left. reflexivity.
Qed.
Lemma make_generators_twice : forall canon l g idx i j c c', nth_error l i = Some c -> nth_error l j = Some c' -> i <> j -> dc_name c = dc_name c' ->
  forall g' idx', make_generators canon l g idx <> GensOk g' idx'.
Proof.
  intros canon l g idx i j c c' I J N E g' idx' H. apply make_generators_spec in H. destruct H as [_ [D _]]. apply N.
  eapply (proj1 (NoDup_nth_error (map dc_name l))); [assumption| |].
  - rewrite map_length. apply nth_error_Some. congruence.
  - rewrite !nth_error_map, I, J. cbn [option_map]. now rewrite E.
Qed.
