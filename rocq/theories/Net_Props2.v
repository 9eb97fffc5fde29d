(** C43: which addresses count as private (distbench_netutils.cc:140-152). *)
From Coq Require Import Ascii String List NArith ZArith Bool Lia.
From Verif Require Import Base_Model Base_Proofs Net_Model.
Import ListNotations.
Open Scope Z_scope.

(** The text of an IPv4 address. *)
Definition quad (a b c d : Z) : str := dec_of_Z a ++ "."%char :: dec_of_Z b ++ "."%char :: dec_of_Z c ++ "."%char :: dec_of_Z d.
(** Hexadecimal digits as inet_ntop writes them, most significant first, and
    their value. *)
Definition hex_char (d : nat) : ascii := nth d (s_ "0123456789abcdef") " "%char.
Definition hex_text (l : list nat) : str := map hex_char l.
Fixpoint hex_value (l : list nat) : Z := match l with [] => 0 | d :: r => Z.of_nat d * 16 ^ Z.of_nat (length r) + hex_value r end.
Definition hex_group (l : list nat) : Prop := l <> [] /\ (length l <= 4)%nat /\ Forall (fun d => (d < 16)%nat) l.
(** What the code takes for private, by the first two bytes. *)
Definition private_bytes (a b : Z) : Prop := a = 10 \/ (a = 172 /\ (b = 16 \/ 160 <= b <= 169)) \/ (a = 192 /\ b = 168).

Lemma starts_app (c : ascii) p : ~ In c p -> forall x y, ~ In c x -> starts_with (x ++ c :: y) p = starts_with x p.
Proof.
  induction p as [|q p IH]; intros Np x y Nx; [destruct x; reflexivity|]. destruct x as [|z x]; cbn [app starts_with].
  - destruct (Ascii.eqb_spec q c) as [->|_]; [exfalso; apply Np; left; reflexivity|reflexivity].
  - rewrite IH; [reflexivity|intros K; apply Np; right; exact K|intros K; apply Nx; right; exact K].
Qed.
Lemma starts_sep (c : ascii) p q : ~ In c p -> forall x y, ~ In c x -> starts_with (x ++ c :: y) (p ++ c :: q) = str_eqb x p && starts_with y q.
Proof.
  induction p as [|r p IH]; intros Np x y Nx; destruct x as [|z x]; cbn [app starts_with].
  - rewrite Ascii.eqb_refl. reflexivity.
  - destruct (Ascii.eqb_spec c z) as [->|_]; [exfalso; apply Nx; left; reflexivity|]. destruct (str_eqb_spec (z :: x) []); [discriminate|reflexivity].
  - destruct (Ascii.eqb_spec r c) as [->|_]; [exfalso; apply Np; left; reflexivity|]. destruct (str_eqb_spec [] (r :: p)); [discriminate|reflexivity].
  - rewrite IH; [|intros K; apply Np; right; exact K|intros K; apply Nx; right; exact K]. destruct (Ascii.eqb_spec r z) as [->|N]; cbn [andb].
    + destruct (str_eqb_spec x p) as [E|M], (str_eqb_spec (z :: x) (z :: p)) as [E'|M']; try reflexivity; congruence.
    + destruct (str_eqb_spec (z :: x) (r :: p)) as [E|_]; [congruence|reflexivity].
Qed.
(** For all bytes. *)
Lemma all_bytes (P : Z -> bool) : forallb P (map Z.of_nat (seq 0 256)) = true -> forall b, 0 <= b < 256 -> P b = true.
Proof. intros H b B. rewrite forallb_forall in H. apply H. apply in_map_iff. exists (Z.to_nat b). split; [lia|apply in_seq; lia]. Qed.
Definition byte_fact (b : Z) : bool :=
  let t := dec_of_Z b in
  forallb (fun c => negb (Ascii.eqb c ".") && negb (Ascii.eqb c ":")) t
  && eqb (str_eqb t (s_ "10")) (b =? 10) && eqb (str_eqb t (s_ "172")) (b =? 172) && eqb (str_eqb t (s_ "192")) (b =? 192)
  && eqb (starts_with t (s_ "16")) ((b =? 16) || (160 <=? b) && (b <=? 169)) && eqb (starts_with t (s_ "168")) (b =? 168)
  && negb (starts_with t (s_ "fc00:")) && negb (starts_with t (s_ "fd00:")) && negb (starts_with t (s_ "2002:")).
Lemma byte_facts : forall b, 0 <= b < 256 -> byte_fact b = true.
Proof. apply all_bytes. vm_compute. reflexivity. Qed.
Lemma byte_plain b c : 0 <= b < 256 -> c = "."%char \/ c = ":"%char -> ~ In c (dec_of_Z b).
Proof.
  intros B C I. pose proof (byte_facts b B) as H. unfold byte_fact in H. rewrite !andb_true_iff in H. destruct H as ((((((((H & _) & _) & _) & _) & _) & _) & _) & _).
  rewrite forallb_forall in H. specialize (H c I). destruct C as [-> | ->]; discriminate H.
Qed.
Definition private_text (ip : str) : bool := starts_with ip (s_ "10.") || starts_with ip (s_ "172.16") || starts_with ip (s_ "192.168") || starts_with ip (s_ "fc00:") || starts_with ip (s_ "fd00:").
Lemma quad_private a b c d : 0 <= a < 256 -> 0 <= b < 256 -> private_text (quad a b c d) = true <-> private_bytes a b.
Proof.
  intros Ha Hb. unfold private_text, quad. pose proof (byte_plain a "."%char Ha (or_introl eq_refl)) as Pa. pose proof (byte_plain b "."%char Hb (or_introl eq_refl)) as Pb.
  change (s_ "10.") with (s_ "10" ++ "."%char :: []). change (s_ "172.16") with (s_ "172" ++ "."%char :: s_ "16"). change (s_ "192.168") with (s_ "192" ++ "."%char :: s_ "168").
  assert (No : forall p, In p [s_ "10"; s_ "172"; s_ "192"; s_ "16"; s_ "168"; s_ "fc00:"; s_ "fd00:"] -> ~ In "."%char p).
  { intros p Hp K. assert (forallb (fun p => negb (existsb (Ascii.eqb ".") p)) [s_ "10"; s_ "172"; s_ "192"; s_ "16"; s_ "168"; s_ "fc00:"; s_ "fd00:"] = true) as F by reflexivity. rewrite forallb_forall in F. specialize (F p Hp). apply negb_true_iff in F.
    assert (existsb (Ascii.eqb ".") p = true) as E; [|congruence]. apply existsb_exists. exists "."%char. split; [exact K|reflexivity]. }
  rewrite !(starts_sep "."%char) by (try exact Pa; apply No; cbn; tauto). rewrite (starts_app "."%char []), (starts_app "."%char (s_ "16")), (starts_app "."%char (s_ "168")), (starts_app "."%char (s_ "fc00:")), (starts_app "."%char (s_ "fd00:")) by first [exact Pa|exact Pb|exact (fun K => K)|apply No; cbn; tauto].
  pose proof (byte_facts a Ha) as A. pose proof (byte_facts b Hb) as B. unfold byte_fact in A, B. rewrite !andb_true_iff, !eqb_true_iff in A, B. destruct A as ((((((((_ & A1) & A2) & A3) & _) & _) & A6) & A7) & _), B as ((((((((_ & _) & _) & _) & B4) & B5) & _) & _) & _).
  apply negb_true_iff in A6, A7. rewrite A1, A2, A3, A6, A7, B4, B5. replace (starts_with (dec_of_Z b) []) with true by (destruct (dec_of_Z b); reflexivity). unfold private_bytes. rewrite !orb_false_r, !orb_true_iff, !andb_true_iff, !orb_true_iff, andb_true_iff, !Z.eqb_eq, !Z.leb_le. tauto.
Qed.
(** An IPv4 address is private by its first two bytes. *)
Theorem C43_private_v4 : forall a b c d dev v4, 0 <= a < 256 -> 0 <= b < 256 -> is_private (mkAddr (quad a b c d) dev v4) = true <-> private_bytes a b.
Proof.
  intros a b c d dev v4 Ha Hb. rewrite <- (quad_private a b c d Ha Hb).
  assert (E : scan_6to4 (quad a b c d) = None); [|unfold is_private, private_text; cbn [ad_ip]; rewrite E; reflexivity].
  unfold scan_6to4. assert (E : starts_with (quad a b c d) (s_ "2002:") = false); [|rewrite E; reflexivity]. unfold quad. rewrite (starts_app "."%char); [|intros K; cbn in K; repeat destruct K as [K|K]; try discriminate K; exact K|apply byte_plain; auto].
  pose proof (byte_facts a Ha) as A. unfold byte_fact in A. rewrite !andb_true_iff in A. destruct A as (_ & A). apply negb_true_iff in A. exact A.
Qed.
(** A 6to4 address whose next two groups are written out, by the IPv4 address in
    them. *)
Lemma hex_char_val d : (d < 16)%nat -> hex_val (hex_char d) = Some (Z.of_nat d) /\ is_space (hex_char d) = false.
Proof. intros H. do 16 (destruct d as [|d]; [split; reflexivity|]). lia. Qed.
Lemma hex_digits_text l : Forall (fun d => (d < 16)%nat) l -> forall acc c r, hex_val c = None -> hex_digits (hex_text l ++ c :: r) acc = (acc * 16 ^ Z.of_nat (length l) + hex_value l, c :: r).
Proof.
  induction l as [|d l IH]; intros F acc c r N; inversion_clear F as [|? ? Hd Hl].
  - cbn [hex_text map app hex_digits]. rewrite N. f_equal. cbn [length hex_value]. change (Z.of_nat 0) with 0. rewrite Z.pow_0_r. lia.
  - cbn [hex_text map app hex_digits]. rewrite (proj1 (hex_char_val d Hd)). unfold hex_text in IH. rewrite IH by assumption. f_equal. cbn [hex_value length]. rewrite Nat2Z.inj_succ, Z.pow_succ_r by lia. lia.
Qed.
Lemma scan_x_text l c r : hex_group l -> hex_val c = None -> scan_x (hex_text l ++ c :: r) = Some (hex_value l, c :: r).
Proof.
  intros (Nn & _ & F) N. destruct l as [|d l]; [contradiction|]. inversion_clear F as [|? ? Hd Hl]. unfold scan_x, hex_text. cbn [map app skip_space]. destruct (hex_char_val d Hd) as [V Sp]. rewrite Sp, V. fold (hex_text l). rewrite hex_digits_text by assumption. reflexivity.
Qed.
Lemma hex_group_range l : hex_group l -> 0 <= hex_value l < 65536.
Proof.
  intros (_ & L & F). assert (G : forall l, Forall (fun d => (d < 16)%nat) l -> 0 <= hex_value l < 16 ^ Z.of_nat (length l)).
  { clear. induction l as [|d l IH]; intros F; [cbn; lia|]. inversion_clear F as [|? ? Hd Hl]. specialize (IH Hl). cbn [hex_value length]. rewrite Nat2Z.inj_succ, Z.pow_succ_r by lia. nia. }
  specialize (G l F). assert (16 ^ Z.of_nat (length l) <= 16 ^ 4) by (apply Z.pow_le_mono_r; lia). change (16 ^ 4) with 65536 in *. lia.
Qed.
Theorem C43_private_6to4 : forall u l rest dev v4, hex_group u -> hex_group l ->
  is_private (mkAddr (s_ "2002:" ++ hex_text u ++ ":"%char :: hex_text l ++ ":"%char :: rest) dev v4) = true <->
  private_bytes (hex_value u / 256) (hex_value u mod 256).
Proof.
  intros u l rest dev v4 U L. pose proof (hex_group_range u U) as Ru. rewrite <- (quad_private (hex_value u / 256) (hex_value u mod 256) (Z.shiftr (hex_value l) 8) (Z.land (hex_value l) 255)) by lia.
  assert (E : scan_6to4 (s_ "2002:" ++ hex_text u ++ ":"%char :: hex_text l ++ ":"%char :: rest) = Some (hex_value u, hex_value l)).
  { unfold scan_6to4. replace (starts_with _ (s_ "2002:")) with true by (symmetry; apply starts_with_spec; eexists; reflexivity). replace (skipn 5 (s_ "2002:" ++ hex_text u ++ ":"%char :: hex_text l ++ ":"%char :: rest)) with (hex_text u ++ ":"%char :: hex_text l ++ ":"%char :: rest) by reflexivity.
    rewrite scan_x_text by (try exact U; reflexivity). replace (Ascii.eqb ":" ":") with true by reflexivity. rewrite scan_x_text by (try exact L; reflexivity). reflexivity. }
  unfold is_private. cbn [ad_ip]. rewrite E. replace (Z.shiftr (hex_value u) 8) with (hex_value u / 256) by (symmetry; apply (Z.shiftr_div_pow2 _ 8); lia). replace (Z.land (hex_value u) 255) with (hex_value u mod 256) by (symmetry; apply (Z.land_ones _ 8); lia). reflexivity.
Qed.
(** Any other IPv6 address, by its first group. *)
Theorem C43_private_v6 : forall g rest dev v4, ~ In "."%char g -> ~ In ":"%char g -> g <> s_ "2002" ->
  is_private (mkAddr (g ++ ":"%char :: rest) dev v4) = true <-> (g = s_ "fc00" \/ g = s_ "fd00").
Proof.
  intros g rest dev v4 Nd Nc N2.
  assert (Co : forall p, ~ In ":"%char p -> starts_with (g ++ ":"%char :: rest) (p ++ ":"%char :: []) = str_eqb g p).
  { intros p Np. rewrite (starts_sep ":"%char) by assumption. destruct rest; rewrite andb_true_r; reflexivity. }
  assert (E : scan_6to4 (g ++ ":"%char :: rest) = None).
  { unfold scan_6to4. change (s_ "2002:") with (s_ "2002" ++ ":"%char :: []). rewrite Co by (intros K; cbn in K; repeat destruct K as [K|K]; try discriminate K; exact K). destruct (str_eqb_spec g (s_ "2002")) as [E|_]; [contradiction|reflexivity]. }
  unfold is_private. cbn [ad_ip]. rewrite E. clear E. change (s_ "fc00:") with (s_ "fc00" ++ ":"%char :: []). change (s_ "fd00:") with (s_ "fd00" ++ ":"%char :: []).
  rewrite !Co by (intros K; cbn in K; repeat destruct K as [K|K]; try discriminate K; exact K).
  assert (D : forall p q, ~ In ":"%char p -> starts_with (g ++ ":"%char :: rest) (p ++ "."%char :: q) = false).
  { clear - Nd. intros p. revert g Nd. induction p as [|x p IH]; intros g Nd q Np; destruct g as [|y g]; cbn [app starts_with]; try reflexivity.
    - destruct (Ascii.eqb_spec "." y) as [<-|_]; [exfalso; apply Nd; left; reflexivity|reflexivity].
    - destruct (Ascii.eqb_spec x ":") as [->|_]; [exfalso; apply Np; left; reflexivity|reflexivity].
    - rewrite IH; [apply andb_false_r|intros K; apply Nd; right; exact K|intros K; apply Np; right; exact K]. }
  change (s_ "10.") with (s_ "10" ++ "."%char :: []). change (s_ "172.16") with (s_ "172" ++ "."%char :: s_ "16"). change (s_ "192.168") with (s_ "192" ++ "."%char :: s_ "168").
  rewrite !D by (intros K; cbn in K; repeat destruct K as [K|K]; try discriminate K; exact K). cbn [orb]. destruct (str_eqb_spec g (s_ "fc00")) as [E|E], (str_eqb_spec g (s_ "fd00")) as [E'|E']; cbn [orb]; split; intros K; auto; try discriminate K. destruct K; contradiction.
Qed.
(** Finding (the code says so for the first half): 172.17.x.x to 172.31.x.x are
    private, 172.160.x.x to 172.169.x.x are not. *)
Definition rfc1918 (a b : Z) : Prop := a = 10 \/ (a = 172 /\ 16 <= b <= 31) \/ (a = 192 /\ b = 168).
Theorem C43_private_refuted :
  (exists a b c d, 0 <= a < 256 /\ 0 <= b < 256 /\ rfc1918 a b /\ is_private (mkAddr (quad a b c d) (s_ "eth0") true) = false) /\
  (exists a b c d, 0 <= a < 256 /\ 0 <= b < 256 /\ ~ rfc1918 a b /\ is_private (mkAddr (quad a b c d) (s_ "eth0") true) = true).
Proof.
  split; [exists 172, 20, 0, 1|exists 172, 165, 0, 1]; (split; [lia|]); (split; [lia|]); (split; [unfold rfc1918; lia|vm_compute; reflexivity]).
Qed.
Print Assumptions C43_private_v4.
Print Assumptions C43_private_6to4.
Print Assumptions C43_private_v6.
Print Assumptions C43_private_refuted.
Example C43_ex_private : quad 192 168 1 4 = s_ "192.168.1.4" /\ private_bytes 192 168 /\ ~ private_bytes 8 8 /\ is_private (mkAddr (quad 8 8 8 8) [] true) = false.
Proof. repeat split; unfold private_bytes; lia. Qed.
Example C43_ex_private_6to4 : hex_group [10; 0; 0]%nat /\ hex_group [1]%nat /\ s_ "2002:" ++ hex_text [10; 0; 0]%nat ++ ":"%char :: hex_text [1]%nat ++ ":"%char :: s_ ":5" = s_ "2002:a00:1::5" /\ private_bytes (hex_value [10; 0; 0]%nat / 256) (hex_value [10; 0; 0]%nat mod 256).
Proof. unfold hex_group. repeat split; try discriminate; try (cbn; lia); try (repeat constructor; lia); left; reflexivity. Qed.
Example C43_ex_private_v6 : is_private (mkAddr (s_ "fd00" ++ ":"%char :: s_ ":1") [] false) = true /\ is_private (mkAddr (s_ "fd01" ++ ":"%char :: s_ ":1") [] false) = false.
Proof. split; reflexivity. Qed.

(** ** Link-local addresses *)
Definition byte_fact2 (b : Z) : bool := let t := dec_of_Z b in eqb (str_eqb t (s_ "169")) (b =? 169) && eqb (str_eqb t (s_ "254")) (b =? 254) && eqb (starts_with t (s_ "255")) (b =? 255) && negb (starts_with t (s_ "fe80:")).
Lemma byte_facts2 : forall b, 0 <= b < 256 -> byte_fact2 b = true.
Proof. apply all_bytes. vm_compute. reflexivity. Qed.
(** An IPv4 address is taken for link-local by its first three bytes: 169.254.255,
    where 169.254 would be right (C43_ipv4_link_local_refuted). *)
Theorem C43_link_local_v4 : forall a b c d dev v4, 0 <= a < 256 -> 0 <= b < 256 -> 0 <= c < 256 ->
  is_link_local (mkAddr (quad a b c d) dev v4) = true <-> (a = 169 /\ b = 254 /\ c = 255).
Proof.
  intros a b c d dev v4 Ha Hb Hc. unfold is_link_local, quad. cbn [ad_ip]. change (s_ "169.254.255") with (s_ "169" ++ "."%char :: s_ "254" ++ "."%char :: s_ "255").
  assert (No : forall p, In p [s_ "169"; s_ "254"; s_ "255"; s_ "fe80:"] -> ~ In "."%char p).
  { intros p Hp K. cbn [In] in Hp. repeat destruct Hp as [<-|Hp]; try (cbn in K; repeat destruct K as [K|K]; try discriminate K; exact K). exact Hp. }
  pose proof (byte_plain a "."%char Ha (or_introl eq_refl)) as Pa. pose proof (byte_plain b "."%char Hb (or_introl eq_refl)) as Pb. pose proof (byte_plain c "."%char Hc (or_introl eq_refl)) as Pc.
  rewrite (starts_app "."%char (s_ "fe80:")) by first [exact Pa|apply No; cbn; tauto]. rewrite !(starts_sep "."%char) by first [exact Pa|exact Pb|apply No; cbn; tauto]. rewrite (starts_app "."%char (s_ "255")) by first [exact Pc|apply No; cbn; tauto].
  pose proof (byte_facts2 a Ha) as A. pose proof (byte_facts2 b Hb) as B. pose proof (byte_facts2 c Hc) as C. unfold byte_fact2 in A, B, C. rewrite !andb_true_iff, !eqb_true_iff in A, B, C. destruct A as (((A1 & _) & _) & A4), B as (((_ & B2) & _) & _), C as (((_ & _) & C3) & _).
  apply negb_true_iff in A4. rewrite A1, B2, C3, A4. cbn [orb]. rewrite !andb_true_iff, !Z.eqb_eq. tauto.
Qed.
Theorem C43_link_local_v6 : forall g rest dev v4, ~ In "."%char g -> ~ In ":"%char g -> is_link_local (mkAddr (g ++ ":"%char :: rest) dev v4) = true <-> g = s_ "fe80".
Proof.
  intros g rest dev v4 Nd Nc. unfold is_link_local. cbn [ad_ip]. change (s_ "fe80:") with (s_ "fe80" ++ ":"%char :: []). rewrite (starts_sep ":"%char) by (try exact Nc; intros K; cbn in K; repeat destruct K as [K|K]; try discriminate K; exact K).
  assert (D : forall p q, ~ In ":"%char p -> starts_with (g ++ ":"%char :: rest) (p ++ "."%char :: q) = false).
  { clear - Nd. intros p. revert g Nd. induction p as [|x p IH]; intros g Nd q Np; destruct g as [|y g]; cbn [app starts_with]; try reflexivity.
    - destruct (Ascii.eqb_spec "." y) as [<-|_]; [exfalso; apply Nd; left; reflexivity|reflexivity].
    - destruct (Ascii.eqb_spec x ":") as [->|_]; [exfalso; apply Np; left; reflexivity|reflexivity].
    - rewrite IH; [apply andb_false_r|intros K; apply Nd; right; exact K|intros K; apply Np; right; exact K]. }
  change (s_ "169.254.255") with (s_ "169" ++ "."%char :: s_ "254.255"). rewrite D by (intros K; cbn in K; repeat destruct K as [K|K]; try discriminate K; exact K). replace (starts_with rest []) with true by (destruct rest; reflexivity).
  rewrite andb_true_r, orb_false_r. destruct (str_eqb_spec g (s_ "fe80")); split; intros K; try reflexivity; try assumption; try discriminate K; contradiction.
Qed.
Print Assumptions C43_link_local_v4.
Print Assumptions C43_link_local_v6.
Example C43_ex_link_local : is_link_local (mkAddr (quad 169 254 255 7) [] true) = true /\ is_link_local (mkAddr (quad 169 254 3 7) [] true) = false /\ is_link_local (mkAddr (s_ "fe80" ++ ":"%char :: s_ ":1") [] false) = true.
Proof. repeat split. Qed.
