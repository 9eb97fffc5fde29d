From Coq Require Import List Bool Arith Lia.
From Verif Require Import Base_Model Base_Proofs Save_Model.
Import ListNotations.
Open Scope nat_scope.

Definition rest (r : option nat) (n : nat) : option nat := match r with None => None | Some k => Some (k - n) end.
Lemma accept_fits r d : fits r d = true -> accept r d = d.
Proof. destruct r as [n|]; [|reflexivity]. cbn [fits accept]. intros H. apply Nat.leb_le in H. apply firstn_all2. exact H. Qed.
Lemma accept_not r d : fits r d = false -> exists n, r = Some n /\ n < length d /\ accept r d = firstn n d.
Proof. destruct r as [n|]; [|discriminate]. cbn [fits accept]. intros H. apply Nat.leb_gt in H. exists n. auto. Qed.
(** The file has all of [t], or the device is full. *)
Definition whole (r : option nat) (s : sink) (t : str) : Prop := k_content s = t /\ fits r t = true /\ k_room s = rest r (length t).
Definition full (r : option nat) (s : sink) (t : str) : Prop := exists n, r = Some n /\ n < length t /\ k_content s = firstn n t /\ k_room s = Some 0.
Lemma sink_write_spec r s t d : whole r s t -> if snd (sink_write s d) then whole r (fst (sink_write s d)) (t ++ d) else full r (fst (sink_write s d)) (t ++ d).
Proof.
  intros (C & F & R). unfold sink_write. cbn [fst snd]. unfold whole, full. cbn [k_content k_room]. rewrite C, R. destruct r as [n|]; cbn [rest fits accept].
  - cbn [fits] in F. apply Nat.leb_le in F. destruct (length d <=? n - length t) eqn:E.
    + apply Nat.leb_le in E. rewrite firstn_all2 by exact E. split; [reflexivity|]. rewrite app_length. split; [apply Nat.leb_le; lia|f_equal; lia].
    + apply Nat.leb_gt in E. exists n. split; [reflexivity|]. rewrite app_length. split; [lia|]. split; [|f_equal; lia]. rewrite firstn_app. rewrite (firstn_all2 t) by exact F. reflexivity.
  - auto.
Qed.
Lemma full_write r s t d : full r s t -> full r (fst (sink_write s d)) t.
Proof. intros (n & -> & L & C & R). exists n. unfold sink_write. cbn [fst k_content k_room]. rewrite R. cbn [accept firstn]. rewrite app_nil_r. auto. Qed.
Lemma full_more r s t d : full r s t -> full r s (t ++ d).
Proof. intros (n & E & L & C & R). exists n. split; [exact E|]. rewrite app_length. split; [lia|]. split; [|exact R]. rewrite C, firstn_app. replace (n - length t) with 0 by lia. cbn [firstn]. rewrite app_nil_r. reflexivity. Qed.

Section Adaptor.
  Context {S : Type}.
  Variables (wr : S -> str -> S * bool) (block : nat) (good bad : S -> str -> Prop).
  Hypothesis wr_spec : forall s t d, good s t -> if snd (wr s d) then good (fst (wr s d)) (t ++ d) else bad (fst (wr s d)) (t ++ d).
  Hypothesis bad_more : forall s t d, bad s t -> bad s (t ++ d).
  Hypothesis block_pos : 0 < block.
  Lemma adapt_spec data : forall buf s t, good s t -> length buf <= block ->
    match adapt wr block buf data s with
    | (s', Some buf') => length buf' <= block /\ exists t', good s' t' /\ t' ++ buf' = t ++ buf ++ data
    | (s', None) => bad s' (t ++ buf ++ data)
    end.
  Proof.
    induction data as [|b data IH]; intros buf s t G L; cbn [adapt].
    - split; [exact L|]. exists t. rewrite app_nil_r. auto.
    - destruct (length buf =? block) eqn:E.
      + pose proof (wr_spec s t buf G) as W. destruct (wr s buf) as [s' [|]]; cbn [fst snd] in W.
        * assert (L1 : length [b] <= block) by (cbn [length]; lia). specialize (IH [b] s' (t ++ buf) W L1). rewrite <- app_assoc in IH. cbn [app] in IH. exact IH.
        * rewrite app_assoc. apply bad_more. exact W.
      + apply Nat.eqb_neq in E. assert (L1 : length (buf ++ [b]) <= block) by (rewrite app_length; cbn [length]; lia). specialize (IH (buf ++ [b]) s t G L1). rewrite <- app_assoc in IH. cbn [app] in IH. exact IH.
  Qed.
End Adaptor.

Lemma whole_nil r : whole r (mkSink [] r) [].
Proof. split; [reflexivity|]. split; [destruct r; reflexivity|]. destruct r as [n|]; cbn [k_room rest length]; [f_equal; lia|reflexivity]. Qed.
Lemma whole_accept r s t : whole r s t -> k_content s = accept r t.
Proof. intros (C & F & _). rewrite C. symmetry. apply accept_fits. exact F. Qed.
Lemma full_accept r s t : full r s t -> k_content s = accept r t.
Proof. intros (n & -> & _ & C & _). exact C. Qed.

Section Save.
  Variables (openable : str -> bool) (block filebuf : nat).
  Hypothesis block_pos : 0 < block.
  Lemma text_spec name data f : openable name = true ->
    exists room, snd (save_text openable block name data f) = mkFs (put_file name (accept (f_room f) data) (f_files f)) room (f_fds f + 1) /\
    (fst (save_text openable block name data f) = true -> length data <= length (accept (f_room f) data) + block) /\
    (fst (save_text openable block name data f) = false -> fits (f_room f) data = false).
  Proof.
    intros O. unfold save_text. rewrite O. pose proof (adapt_spec sink_write block (whole (f_room f)) (full (f_room f)) (sink_write_spec (f_room f)) (full_more (f_room f)) block_pos data [] (mkSink [] (f_room f)) [] (whole_nil _) (Nat.le_0_l _)) as A.
    cbn [app] in A. destruct (adapt sink_write block [] data _) as [s [buf|]].
    - destruct A as [L (t & G & <-)]. pose proof (sink_write_spec _ s t buf G) as W. cbn [fst snd]. exists (k_room (fst (sink_write s buf))). split; [|split; [|discriminate]].
      + f_equal. destruct (snd (sink_write s buf)); [rewrite (whole_accept _ _ _ W)|rewrite (full_accept _ _ _ W)]; reflexivity.
      + intros _. rewrite app_length. destruct G as (_ & F & _). destruct (f_room f) as [n|]; cbn [accept fits] in *; [|rewrite app_length; lia].
        apply Nat.leb_le in F. rewrite firstn_length, app_length. lia.
    - cbn [fst snd]. exists (k_room s). split; [rewrite (full_accept _ _ _ A); reflexivity|]. split; [discriminate|]. intros _. destruct A as (n & -> & L & _). cbn [fits]. apply Nat.leb_gt. exact L.
  Qed.

  Definition ogood (r : option nat) (o : ostream) (t : str) : Prop := o_good o = true /\ exists u, whole r (o_file o) u /\ u ++ o_held o = t /\ length (o_held o) <= filebuf.
  Definition obad (r : option nat) (o : ostream) (t : str) : Prop := o_good o = false /\ full r (o_file o) t.
  Lemma o_write_spec r o t d : ogood r o t -> if snd (o_write filebuf o d) then ogood r (fst (o_write filebuf o d)) (t ++ d) else obad r (fst (o_write filebuf o d)) (t ++ d).
  Proof.
    intros (G & u & W & <- & L). unfold o_write. rewrite G. destruct (hd false (o_holds o) && (length (o_held o ++ d) <=? filebuf)) eqn:E; cbn [fst snd].
    - split; [reflexivity|]. exists u. split; [exact W|]. cbn [o_held]. split; [apply app_assoc|]. apply andb_true_iff in E. apply Nat.leb_le. exact (proj2 E).
    - pose proof (sink_write_spec r (o_file o) u (o_held o ++ d) W) as K. destruct (sink_write (o_file o) (o_held o ++ d)) as [s [|]]; cbn [fst snd] in *; rewrite <- app_assoc.
      + split; [reflexivity|]. eexists. split; [exact K|]. cbn [o_held length]. split; [apply app_nil_r|lia].
      + split; [reflexivity|exact K].
  Qed.
  Lemma obad_more r o t d : obad r o t -> obad r o (t ++ d).
  Proof. intros [G F]. split; [exact G|apply full_more; exact F]. Qed.
  Lemma ogood_close r o t : ogood r o t -> k_content (o_close o) = accept r t /\ length t <= length (accept r t) + filebuf.
  Proof.
    intros (_ & u & W & <- & L). unfold o_close. pose proof (sink_write_spec r (o_file o) u (o_held o) W) as K. split.
    - destruct (snd (sink_write (o_file o) (o_held o))); [apply whole_accept|apply full_accept]; exact K.
    - destruct W as (_ & F & _). destruct r as [n|]; cbn [accept fits] in *; [|lia]. apply Nat.leb_le in F. rewrite firstn_length, app_length. lia.
  Qed.
  Lemma obad_close r o t : obad r o t -> k_content (o_close o) = accept r t /\ fits r t = false.
  Proof.
    intros [_ F]. split; [apply full_accept, full_write, F|]. destruct F as (n & -> & L & _). cbn [fits]. apply Nat.leb_gt. exact L.
  Qed.
  Lemma binary_spec name data holds f : openable name = true ->
    exists room, snd (save_binary openable block filebuf name (Some data) holds f) = mkFs (put_file name (accept (f_room f) data) (f_files f)) room (f_fds f) /\
    (fst (save_binary openable block filebuf name (Some data) holds f) = true -> length data <= length (accept (f_room f) data) + filebuf) /\
    (fst (save_binary openable block filebuf name (Some data) holds f) = false -> fits (f_room f) data = false).
  Proof.
    intros O. unfold save_binary. rewrite O.
    assert (G0 : ogood (f_room f) (mkOs (mkSink [] (f_room f)) [] true holds) []).
    { split; [reflexivity|]. exists []. split; [apply whole_nil|]. cbn [o_held length app]. split; [reflexivity|lia]. }
    pose proof (adapt_spec (o_write filebuf) block (ogood (f_room f)) (obad (f_room f)) (o_write_spec (f_room f)) (obad_more (f_room f)) block_pos data [] _ [] G0 (Nat.le_0_l _)) as A.
    cbn [app] in A. destruct (adapt (o_write filebuf) block [] data _) as [o [buf|]].
    - destruct A as [_ (t & G & <-)]. pose proof (o_write_spec _ o t buf G) as W. destruct (o_write filebuf o buf) as [o' [|]]; cbn [fst snd] in *.
      + destruct (ogood_close _ _ _ W) as [C L]. rewrite C. eexists. split; [reflexivity|]. split; [intros _; exact L|discriminate].
      + destruct (obad_close _ _ _ W) as [C L]. rewrite C. eexists. split; [reflexivity|]. split; [discriminate|intros _; exact L].
    - cbn [fst snd]. destruct (obad_close _ _ _ A) as [C L]. rewrite C. eexists. split; [reflexivity|]. split; [discriminate|intros _; exact L].
  Qed.
End Save.
