(** C97: what is in the result file, and what is reported about it. *)
From Coq Require Import Ascii String List NArith ZArith QArith Bool Arith Lia.
From Verif Require Import Base_Model Base_Proofs Save_Model Save_Proofs Cli_Model Cli_Props.
Import ListNotations.
Open Scope nat_scope.

Section Save.
  Variables (openable : str -> bool) (block filebuf : nat) (as_binary : bool) (holds : list bool).
  Definition save_as (name data : str) (f : fs) : bool * fs :=
    if as_binary then save_binary openable block filebuf name (Some data) holds f else save_text openable block name data f.
  (** A file that can be opened is replaced by the beginning of the results, all
      of them unless the device is full, and no other file is touched. *)
  Theorem C97_contents : forall name data f ok f', 0 < block -> save_as name data f = (ok, f') ->
    (openable name = false -> ok = false /\ f' = f) /\
    (openable name = true -> (forall other, other <> name -> f_files f' other = f_files f other) /\
       exists c r, f_files f' name = Some c /\ data = c ++ r /\ (r <> [] -> f_room f = Some (length c))).
  Proof.
    intros name data f ok f' B H. unfold save_as in H. split; intros O.
    - unfold save_binary, save_text in H. rewrite O in H. destruct as_binary; injection H as <- <-; auto.
    - assert (E : exists room fds, f' = mkFs (put_file name (accept (f_room f) data) (f_files f)) room fds).
      { destruct as_binary; [destruct (binary_spec openable block filebuf B name data holds f O) as (room & E & _)|destruct (text_spec openable block B name data f O) as (room & E & _)];
          rewrite H in E; cbn [snd] in E; eexists; eexists; exact E. }
      destruct E as (room & fds & ->). cbn [f_files]. split.
      + intros other N. unfold put_file. destruct (str_eqb other name) eqn:Q; [|reflexivity]. destruct (str_eqb_spec other name); congruence.
      + exists (accept (f_room f) data). destruct (f_room f) as [n|]; cbn [accept].
        * exists (skipn n data). split; [unfold put_file; rewrite str_eqb_refl; reflexivity|]. split; [symmetry; apply firstn_skipn|]. intros R. f_equal. rewrite firstn_length.
          destruct (Nat.le_gt_cases (length data) n) as [L|L]; [destruct (R (skipn_all2 _ L))|lia].
        * exists []. split; [unfold put_file; rewrite str_eqb_refl; reflexivity|]. split; [symmetry; apply app_nil_r|congruence].
  Qed.
  (** An error means that the file was not opened, or that it is not complete; no
      error, that it was opened and at most the last block is missing. *)
  Theorem C97_reports : forall name data f ok f', 0 < block -> save_as name data f = (ok, f') ->
    (ok = false -> openable name = true -> f_files f' name <> Some data) /\
    (ok = true -> openable name = true /\ exists c r, f_files f' name = Some c /\ data = c ++ r /\ length r <= if as_binary then filebuf else block).
  Proof.
    intros name data f ok f' B H.
    assert (E : openable name = true -> exists room fds, f' = mkFs (put_file name (accept (f_room f) data) (f_files f)) room fds /\
      (ok = true -> length data <= length (accept (f_room f) data) + if as_binary then filebuf else block) /\ (ok = false -> fits (f_room f) data = false)).
    { intros O. unfold save_as in H. destruct as_binary; [destruct (binary_spec openable block filebuf B name data holds f O) as (room & E & P & Q)|destruct (text_spec openable block B name data f O) as (room & E & P & Q)];
        rewrite H in E, P, Q; cbn [fst snd] in E, P, Q; eexists; eexists; split; [exact E|auto|exact E|auto]. }
    split.
    - intros -> O. destruct (E O) as (room & fds & -> & _ & Q). specialize (Q eq_refl). apply accept_not in Q. destruct Q as (n & R & L & _). cbn [f_files]. unfold put_file. rewrite str_eqb_refl, R. cbn [accept].
      intros K. injection K as K. apply (f_equal (@length _)) in K. rewrite firstn_length in K. lia.
    - intros ->. destruct (openable name) eqn:O.
      + split; [reflexivity|]. destruct (E eq_refl) as (room & fds & -> & P & _). specialize (P eq_refl). cbn [f_files]. unfold put_file. rewrite str_eqb_refl. exists (accept (f_room f) data).
        destruct (f_room f) as [n|]; cbn [accept] in *.
        * exists (skipn n data). split; [reflexivity|]. split; [symmetry; apply firstn_skipn|]. rewrite skipn_length. rewrite firstn_length in P. lia.
        * exists []. split; [reflexivity|]. split; [symmetry; apply app_nil_r|cbn [length]; lia].
      + unfold save_as, save_binary, save_text in H. rewrite O in H. destruct as_binary; discriminate H.
  Qed.
  (** With room for the results they are saved, and this is reported. *)
  Theorem C97_works : forall name data f ok f', 0 < block -> save_as name data f = (ok, f') -> openable name = true -> (forall n, f_room f = Some n -> length data <= n) ->
    ok = true /\ f_files f' name = Some data.
  Proof.
    intros name data f ok f' B H O R.
    assert (F : fits (f_room f) data = true) by (destruct (f_room f) as [n|]; [apply Nat.leb_le, R; reflexivity|reflexivity]).
    unfold save_as in H. destruct as_binary; [destruct (binary_spec openable block filebuf B name data holds f O) as (room & E & _ & Q)|destruct (text_spec openable block B name data f O) as (room & E & _ & Q)];
      rewrite H in E, Q; cbn [fst snd] in E, Q; (split; [destruct ok; [reflexivity|rewrite (Q eq_refl) in F; discriminate F]|]); rewrite E; cbn [f_files]; unfold put_file; rewrite str_eqb_refl; f_equal; apply accept_fits; exact F.
  Qed.
  (** The binary form leaves no descriptor open. *)
  Theorem C97_descriptors : forall name data f, 0 < block -> as_binary = true -> f_fds (snd (save_as name data f)) = f_fds f.
  Proof.
    intros name data f B A. unfold save_as. rewrite A. destruct (openable name) eqn:O.
    - destruct (binary_spec openable block filebuf B name data holds f O) as (room & E & _). rewrite E. reflexivity.
    - unfold save_binary. rewrite O. reflexivity.
  Qed.
  (** Finding: the text form leaves one open, whatever happens. *)
  Theorem C97_descriptors_refuted : forall name data f, 0 < block -> as_binary = false -> openable name = true -> f_fds (snd (save_as name data f)) = f_fds f + 1.
  Proof. intros name data f B A O. unfold save_as. rewrite A. destruct (text_spec openable block B name data f O) as (room & E & _). rewrite E. reflexivity. Qed.
End Save.

(** Finding: results that fit into a block are reported saved though the device
    is full and the file empty. *)
Lemma adapt_short {S} (wr : S -> str -> S * bool) block data : forall buf s, length (buf ++ data) <= block -> adapt wr block buf data s = (s, Some (buf ++ data)).
Proof.
  induction data as [|b data IH]; intros buf s L; cbn [adapt]; [rewrite app_nil_r; reflexivity|]. rewrite app_length in L. cbn [length] in L.
  destruct (length buf =? block) eqn:E; [apply Nat.eqb_eq in E; lia|]. rewrite IH by (rewrite !app_length; cbn [length]; lia). rewrite <- app_assoc. reflexivity.
Qed.
Theorem C97_full_refuted : forall openable block filebuf as_binary name data files fds, openable name = true -> length data <= block -> length data <= filebuf ->
  exists f', save_as openable block filebuf as_binary [true] name data (mkFs files (Some 0) fds) = (true, f') /\ f_files f' name = Some [].
Proof.
  intros openable block filebuf as_binary name data files fds O L M. unfold save_as. destruct as_binary.
  - unfold save_binary. rewrite O, adapt_short by exact L. unfold o_write. cbn [o_good o_held app o_holds hd andb]. apply Nat.leb_le in M. rewrite M. eexists. split; [reflexivity|].
    cbn [f_files]. unfold put_file. rewrite str_eqb_refl. reflexivity.
  - unfold save_text. rewrite O, adapt_short by exact L. eexists. split; [reflexivity|]. cbn [f_files]. unfold put_file. rewrite str_eqb_refl. reflexivity.
Qed.
(** So run_tests exits with 0 after a test whose results are nowhere. *)
Definition save_on (f : fs) (print : nat -> str) (as_binary : bool) (name : str) (r : nat) : bool := fst (save_as (fun _ => true) 8 8 as_binary [true] name (print r) f).
Theorem C97_exit_refuted : forall as_binary, exists print files f', print 1 <> [] /\
  save_as (fun _ => true) 8 8 as_binary [true] (s_ "out") (print 1) (mkFs files (Some 0) 3) = (true, f') /\ f_files f' (s_ "out") = Some [] /\
  snd (run_tests ex_read (fun _ => None) ex_text (fun _ _ => Some 1) (save_on (mkFs files (Some 0) 3) print) (mkFlags (s_ "in") (s_ "out") as_binary 0%Z (s_ "sequencer")) []) = XExit 0%Z.
Proof.
  intros as_binary. exists (fun _ => s_ "results"), (fun _ => None).
  destruct (C97_full_refuted (fun _ => true) 8 8 as_binary (s_ "out") (s_ "results") (fun _ => None) 3 eq_refl) as (f' & E & F); [cbn; lia|cbn; lia|].
  exists f'. split; [discriminate|]. split; [exact E|]. split; [exact F|]. destruct as_binary; vm_compute; reflexivity.
Qed.
(** Finding: results too large to be serialised empty the file. *)
Theorem C97_too_large_refuted : exists openable name f f', f_files f name = Some (s_ "older results") /\ save_binary openable 8 8 name None [] f = (false, f') /\ f_files f' name = Some [].
Proof. exists (fun _ => true), (s_ "out"), (mkFs (fun _ => Some (s_ "older results")) None 3). exists (snd (save_binary (fun _ => true) 8 8 (s_ "out") None [] (mkFs (fun _ => Some (s_ "older results")) None 3))). split; [reflexivity|]. split; [reflexivity|vm_compute; reflexivity]. Qed.

Print Assumptions C97_contents.
Print Assumptions C97_reports.
Print Assumptions C97_works.
Print Assumptions C97_descriptors.
Print Assumptions C97_descriptors_refuted.
Print Assumptions C97_full_refuted.
Print Assumptions C97_exit_refuted.
Print Assumptions C97_too_large_refuted.

(** ** Examples *)
(** Five bytes in blocks of two: with room for all, for three (the last block is
    lost unnoticed: the second is not), for one. *)
Definition ex_fs (room : option nat) : fs := mkFs (fun n => if str_eqb n (s_ "out") then Some (s_ "old") else Some (s_ "other")) room 3.
Definition see (r : bool * fs) : bool * option str * option str * nat := (fst r, f_files (snd r) (s_ "out"), f_files (snd r) (s_ "x"), f_fds (snd r)).
Example C97_text_ex : map (fun room => see (save_as (fun _ => true) 2 3 false [] (s_ "out") (s_ "abcde") (ex_fs room))) [None; Some 5; Some 4; Some 3; Some 1] =
  [(true, Some (s_ "abcde"), Some (s_ "other"), 4); (true, Some (s_ "abcde"), Some (s_ "other"), 4); (true, Some (s_ "abcd"), Some (s_ "other"), 4);
   (false, Some (s_ "abc"), Some (s_ "other"), 4); (false, Some (s_ "a"), Some (s_ "other"), 4)].
Proof. vm_compute. reflexivity. Qed.
(** In the binary form, with the second and third write held, and none held. *)
Example C97_binary_ex : map (fun x => see (save_as (fun _ => true) 2 3 true (fst x) (s_ "out") (s_ "abcde") (ex_fs (snd x)))) [([false; true; true], None); ([false; true; true], Some 2); ([false; true; true], Some 1); ([], Some 4)] =
  [(true, Some (s_ "abcde"), Some (s_ "other"), 3); (true, Some (s_ "ab"), Some (s_ "other"), 3); (false, Some (s_ "a"), Some (s_ "other"), 3); (false, Some (s_ "abcd"), Some (s_ "other"), 3)].
Proof. vm_compute. reflexivity. Qed.
Example C97_not_opened_ex : see (save_as (fun _ => false) 2 3 false [] (s_ "out") (s_ "abcde") (ex_fs None)) = (false, Some (s_ "old"), Some (s_ "other"), 3).
Proof. vm_compute. reflexivity. Qed.
