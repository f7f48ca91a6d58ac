(** * Property C129: editing a UTF-8 text with std::string's functions

    [octet_at cs k] (Properties_Native.v): where codepoint number [k] of [cs] begins in the string.  [occurs_at], [first_occurrence]: AlgoSpec.v. *)
From Verif Require Import Prelude Utf8Model TextModel Utf8Spec UnicodeSpec GraphemeSpec TextSpec Utf8Proofs AlgoModel AlgoSpec NativeModel NativeProofs EditModel
  DecompProofs GraphemeProofs Uax29Proofs Properties_Algorithms Properties_Native Properties_Bytes.
Require Import ZifyBool ZifyNat.

(** Specification: each occurrence of [ds], from the left and without overlap, replaced by [rs]. *)
Inductive replaced (ds rs : list Z) : list Z -> list Z -> Prop :=
| rep_none : forall cs, (forall k, ~ occurs_at cs ds k) -> replaced ds rs cs cs
| rep_first : forall x y z, first_occurrence (x ++ ds ++ y) ds (length x) -> replaced ds rs y z ->
    replaced ds rs (x ++ ds ++ y) (x ++ rs ++ z).

Lemma cut_text cs k : firstn (Z.to_nat (octet_at cs k)) (utf8_text cs) = utf8_text (firstn k cs) /\
  skipn (Z.to_nat (octet_at cs k)) (utf8_text cs) = utf8_text (skipn k cs).
Proof.
  unfold octet_at, zlen. rewrite Nat2Z.id. rewrite <- (firstn_skipn k cs) at 2 5. rewrite text_app. split.
  - rewrite firstn_app, Nat.sub_diag, firstn_all. apply app_nil_r.
  - rewrite skipn_app, Nat.sub_diag, skipn_all. reflexivity.
Qed.
Lemma octet_at_zlen cs k : octet_at cs k <= zlen (utf8_text cs).
Proof. unfold octet_at. rewrite <- (firstn_skipn k cs) at 2. rewrite text_app. unfold zlen. rewrite app_length. lia. Qed.
Lemma octet_at_le cs i j : (i <= j)%nat -> 0 <= octet_at cs i <= octet_at cs j.
Proof.
  intros I. unfold octet_at. replace (firstn i cs) with (firstn i (firstn j cs)) by (rewrite firstn_firstn; f_equal; lia).
  rewrite <- (firstn_skipn i (firstn j cs)) at 3. rewrite text_app. unfold zlen. rewrite app_length. lia.
Qed.
Lemma limit_eq cs i j : (i <= j)%nat -> limit (utf8_text cs) (octet_at cs i) (octet_at cs j - octet_at cs i) = octet_at cs j - octet_at cs i.
Proof. intros I. unfold limit. pose proof (octet_at_zlen cs j). destruct (Z.ltb_spec (octet_at cs j - octet_at cs i) (zlen (utf8_text cs) - octet_at cs i)); lia. Qed.

(** ** At codepoint positions the functions edit the text. *)
Theorem C129_edit : forall cs rs i j, (i <= j)%nat ->
  let s := utf8_text cs in
  string_replace s (octet_at cs i) (octet_at cs j - octet_at cs i) (utf8_text rs) = Some (utf8_text (firstn i cs ++ rs ++ skipn j cs)) /\
  string_insert s (octet_at cs i) (utf8_text rs) = Some (utf8_text (firstn i cs ++ rs ++ skipn i cs)) /\
  string_erase s (octet_at cs i) (Some (octet_at cs j - octet_at cs i)) = Some (utf8_text (firstn i cs ++ skipn j cs)) /\
  string_erase s (octet_at cs i) None = Some (utf8_text (firstn i cs)) /\
  string_substr s (octet_at cs i) (octet_at cs j - octet_at cs i) = Some (utf8_text (firstn (j - i) (skipn i cs))).
Proof.
  intros cs rs i j I. cbv zeta. pose proof (octet_at_zlen cs i) as L. destruct (cut_text cs i) as (Fi & Si). destruct (cut_text cs j) as (_ & Sj).
  assert (R : forall i j, (i <= j)%nat -> string_replace (utf8_text cs) (octet_at cs i) (octet_at cs j - octet_at cs i) (utf8_text rs)
    = Some (utf8_text (firstn i cs ++ rs ++ skipn j cs))).
  { clear. intros i j I. unfold string_replace. pose proof (octet_at_zlen cs i). destruct (Z.ltb_spec (zlen (utf8_text cs)) (octet_at cs i)); [lia|].
    rewrite (limit_eq cs i j I). replace (octet_at cs i + (octet_at cs j - octet_at cs i)) with (octet_at cs j) by lia.
    rewrite (proj1 (cut_text cs i)), (proj2 (cut_text cs j)), !text_app. reflexivity. }
  split; [exact (R i j I)|]. split.
  { unfold string_insert. rewrite <- (R i i (le_n i)). f_equal. lia. }
  unfold string_erase, string_substr. destruct (Z.ltb_spec (zlen (utf8_text cs)) (octet_at cs i)); [lia|]. rewrite (limit_eq cs i j I).
  replace (octet_at cs i + (octet_at cs j - octet_at cs i)) with (octet_at cs j) by lia. rewrite Fi, Si, Sj. split; [|split].
  - destruct (Z.eqb_spec (octet_at cs j - octet_at cs i) 0) as [E|E]; f_equal; rewrite text_app; [|reflexivity].
    replace (octet_at cs j) with (octet_at cs i) in Sj by lia. rewrite <- Sj, Si, <- text_app, firstn_skipn. reflexivity.
  - reflexivity.
  - f_equal. rewrite <- (proj1 (cut_text (skipn i cs) (j - i))). f_equal. f_equal. unfold octet_at.
    rewrite <- (firstn_skipn i (firstn j cs)). rewrite text_app, firstn_firstn. replace (Nat.min i j) with i by lia. rewrite skipn_firstn_comm.
    unfold zlen. rewrite app_length. lia.
Qed.
Print Assumptions C129_edit.

(** A client finds these octets with the codepoint iterators of the string ([std_advance]: AlgoModel.v, C92): [p] is [i] codepoints
    from the beginning, [q] another [n]. *)
Theorem C129_edit_with_iterators : forall cs rs i n, Forall codepoint31 cs -> (i + n <= length cs)%nat ->
  let s := utf8_text cs in let ops := utf8_ops (string_buffer s) in
  exists p q, std_advance ops 0 (Z.of_nat i) = Ok p /\ std_advance ops p (Z.of_nat n) = Ok q /\
    string_replace s p (q - p) (utf8_text rs) = Some (utf8_text (firstn i cs ++ rs ++ skipn (i + n) cs)) /\
    string_insert s p (utf8_text rs) = Some (utf8_text (firstn i cs ++ rs ++ skipn i cs)) /\
    string_erase s p (Some (q - p)) = Some (utf8_text (firstn i cs ++ skipn (i + n) cs)) /\
    string_substr s p (q - p) = Some (utf8_text (firstn n (skipn i cs))).
Proof.
  intros cs rs i n C L. cbv zeta. exists (octet_at cs i), (octet_at cs (i + n)).
  assert (T : a_text (utf8_ops (string_buffer (utf8_text cs))) 0 (zlen (utf8_text cs)) cs (octet_at cs)) by (left; constructor; exact C).
  split; [|split].
  - pose proof (C92_advance _ _ _ _ _ 0 (Z.of_nat i) T ltac:(lia) ltac:(unfold zlen; lia)) as X. rewrite Z.add_0_l, Nat2Z.id in X. exact X.
  - pose proof (C92_advance _ _ _ _ _ i (Z.of_nat n) T ltac:(lia) ltac:(unfold zlen; lia)) as X. replace (Z.to_nat (Z.of_nat i + Z.of_nat n)) with (i + n)%nat in X by lia. exact X.
  - destruct (C129_edit cs rs i (i + n) ltac:(lia)) as (A & B & D & _ & E). replace (i + n - i)%nat with n in E by lia. auto.
Qed.
Print Assumptions C129_edit_with_iterators.

(** Or with the grapheme iterators: number [length before] of the graphemes ([nth_grapheme]: that many increments of grapheme_begin(), C71)
    says where its grapheme begins and ends; so a client cuts out, replaces or copies one grapheme. *)
Theorem C129_edit_with_grapheme_iterators : forall cs rs before g after fuel, Forall codepoint31 cs -> (length cs < fuel)%nat ->
  segments pairwise_boundary cs (before ++ g :: after) ->
  let s := utf8_text cs in
  exists it, nth_grapheme fuel (utf8_ops (string_buffer s)) 0 (zlen s) (length before) = Ok it /\
    let '(p, q) := gi_deref it in
    string_replace s p (q - p) (utf8_text rs) = Some (utf8_text (concat before ++ rs ++ concat after)) /\
    string_insert s p (utf8_text rs) = Some (utf8_text (concat before ++ rs ++ g ++ concat after)) /\
    string_erase s p (Some (q - p)) = Some (utf8_text (concat before ++ concat after)) /\
    string_substr s p (q - p) = Some (utf8_text g).
Proof.
  intros cs rs before g after fuel C Hf S. cbv zeta.
  assert (T : string_in_memory (utf8_ops (string_buffer (utf8_text cs))) 0 (zlen (utf8_text cs)) cs (octet_at cs)) by (constructor; exact C).
  destruct (C71_iterator_stands_on_its_grapheme _ _ _ _ _ before g after fuel T Hf S) as (it & E & D & _). exists it. split; [exact E|]. rewrite D.
  assert (Q : cs = concat before ++ g ++ concat after) by (rewrite <- (proj1 S), concat_app; reflexivity).
  destruct (C129_edit cs rs (length (concat before)) (length (concat before) + length g) ltac:(lia)) as (A & B & F & _ & G).
  replace (length (concat before) + length g - length (concat before))%nat with (length g) in G by lia.
  assert (F1 : firstn (length (concat before)) cs = concat before) by (rewrite Q, firstn_app, firstn_all, Nat.sub_diag; cbn [firstn]; apply app_nil_r).
  assert (S1 : skipn (length (concat before)) cs = g ++ concat after) by (rewrite Q, skipn_app, skipn_all, Nat.sub_diag; reflexivity).
  assert (S2 : skipn (length (concat before) + length g) cs = concat after).
  { rewrite Q, app_assoc, <- app_length, skipn_app, skipn_all, Nat.sub_diag. reflexivity. }
  assert (F2 : firstn (length g) (skipn (length (concat before)) cs) = g) by (rewrite S1, firstn_app, firstn_all, Nat.sub_diag; cbn [firstn]; apply app_nil_r).
  rewrite F1, S2 in A. rewrite F1, S1 in B. rewrite F1, S2 in F. rewrite F2 in G. auto.
Qed.
Print Assumptions C129_edit_with_grapheme_iterators.

(** ** Replacing every occurrence. *)
Theorem C129_replaced_is_unique : forall ds rs cs x y, ds <> [] -> replaced ds rs cs x -> replaced ds rs cs y -> x = y.
Proof.
  intros ds rs cs x y N H. revert y. induction H as [cs H|x t z F _ IH]; intros w K.
  - destruct K as [cs K|x t z (O & _) _]; [reflexivity|]. exfalso. exact (H _ O).
  - remember (x ++ ds ++ t) as l eqn:El. destruct K as [l K|x' t' z' F' K].
    + exfalso. subst l. exact (K _ (proj1 F)).
    + symmetry in El. assert (L : length x = length x').
      { destruct F as (O & M), F' as (O' & M'). destruct (Nat.lt_trichotomy (length x) (length x')) as [Q|[Q|Q]]; [exfalso; exact (M' _ Q O)|exact Q|exfalso; exact (M _ Q O')]. }
      assert (E : x = x' /\ ds ++ t = ds ++ t').
      { clear - El L. revert x' El L. induction x as [|c x IH]; intros [|d x'] El L; try discriminate; [auto|]. cbn in El. injection El as -> El. injection L as L.
        destruct (IH x' El L) as (-> & E). auto. }
      destruct E as (-> & E). apply app_inv_head in E. subst t'. rewrite (IH z' K). reflexivity.
Qed.
Print Assumptions C129_replaced_is_unique.
Lemma octet_at_app x y : octet_at (x ++ y) (length x) = zlen (utf8_text x).
Proof. unfold octet_at. rewrite firstn_app, firstn_all, Nat.sub_diag. cbn [firstn]. rewrite app_nil_r. reflexivity. Qed.
Lemma occurs_before d cs ds k : occurs_at cs ds k -> occurs_at (d ++ cs) ds (length d + k).
Proof. intros (x & y & -> & <-). exists (d ++ x), y. rewrite <- app_assoc, app_length. auto. Qed.
Lemma occurs_after d cs ds k : (length d <= k)%nat -> occurs_at (d ++ cs) ds k -> occurs_at cs ds (k - length d).
Proof.
  intros L O. apply occurs_skipn in O. destruct O as (B & r & E). apply occurs_skipn. rewrite skipn_app, skipn_all2 in E by exact L. rewrite app_length in B.
  split; [lia|]. exists r. exact E.
Qed.
Theorem C129_replace_all : forall cs ds rs, Forall codepoint31 cs -> Forall codepoint31 ds -> Forall codepoint31 rs -> ds <> [] ->
  exists out, replaced ds rs cs out /\
    exists enough, forall fuel, (enough <= fuel)%nat -> replace_all fuel (utf8_text cs) (utf8_text ds) (utf8_text rs) 0 = Ok (Some (utf8_text out)).
Proof.
  intros cs ds rs C D R N.
  assert (H : forall n cs done, (length cs <= n)%nat -> Forall codepoint31 cs -> Forall codepoint31 done ->
    exists out, replaced ds rs cs out /\ exists enough, forall fuel, (enough <= fuel)%nat ->
      replace_all fuel (utf8_text (done ++ cs)) (utf8_text ds) (utf8_text rs) (zlen (utf8_text done)) = Ok (Some (utf8_text (done ++ out)))).
  { clear cs C. induction n as [n IH] using lt_wf_ind. intros cs done Ln C Dn.
    set (s := utf8_text (done ++ cs)). assert (CC : Forall codepoint31 (done ++ cs)) by (apply Forall_app; auto).
    assert (FIND : forall fuel, (S (S (length s)) <= fuel)%nat ->
      (exists k, string_find fuel s (utf8_text ds) (zlen (utf8_text done)) = Ok (Some (octet_at (done ++ cs) (length done + k))) /\ first_occurrence cs ds k) \/
      (string_find fuel s (utf8_text ds) (zlen (utf8_text done)) = Ok None /\ forall k, ~ occurs_at cs ds k)).
    { intros fuel Hf. destruct (C128_find (done ++ cs) ds (zlen (utf8_text done)) fuel CC D N ltac:(unfold s in Hf; lia) ltac:(unfold zlen; lia)) as [(k & E & G & O & M)|(E & M)].
      - left. assert (K : (length done <= k)%nat).
        { destruct (Nat.le_gt_cases (length done) k) as [Q|Q]; [exact Q|]. pose proof (octet_at_less (done ++ cs) k (length done) CC ltac:(rewrite app_length; lia)) as X.
          rewrite octet_at_app in X. lia. }
        exists (k - length done)%nat. replace (length done + (k - length done))%nat with k by lia. split; [exact E|]. split; [exact (occurs_after _ _ _ _ K O)|].
        intros j J Oj. apply (M (length done + j)%nat ltac:(lia)); [|apply occurs_before; exact Oj].
        rewrite <- (octet_at_app done cs). apply octet_at_le. lia.
      - right. split; [exact E|]. intros k O. apply (M (length done + k)%nat); [|apply occurs_before; exact O].
        rewrite <- (octet_at_app done cs). apply octet_at_le. lia. }
    destruct (FIND _ (le_n _)) as [(k & _ & F)|(_ & F)].
    - pose proof (proj1 F) as O. destruct O as (x & y & E & Lx). subst k.
      assert (Ly : (length y < n)%nat). { apply (f_equal (@length Z)) in E. rewrite !app_length in E. destruct ds; [contradiction|cbn [length] in E; lia]. }
      subst cs. assert (Cy : Forall codepoint31 y) by (apply Forall_app in C; destruct C as (_ & C); apply Forall_app in C; tauto).
      assert (Cd : Forall codepoint31 (done ++ x ++ rs)) by (apply Forall_app in C; destruct C; rewrite !Forall_app; auto).
      destruct (IH (length y) Ly y (done ++ x ++ rs) (le_n _) Cy Cd) as (z & Z & enough & H).
      exists (x ++ rs ++ z). split; [constructor; assumption|]. exists (Nat.max (S (S (length s))) (S enough)). intros fuel Hf. destruct fuel as [|fuel]; [lia|].
      cbn [replace_all]. fold s. destruct (FIND (S fuel) ltac:(lia)) as [(k & E & F')|(_ & F')]; [|exfalso; exact (F' _ (proj1 F))].
      assert (k = length x) as ->.
      { destruct F as (O & M), F' as (O' & M'). destruct (Nat.lt_trichotomy k (length x)) as [Q|[Q|Q]]; [exfalso; exact (M _ Q O')|exact Q|exfalso; exact (M' _ Q O)]. }
      rewrite E. cbn [bind].
      replace (zlen (utf8_text ds)) with (octet_at (done ++ x ++ ds ++ y) (length done + length x + length ds) - octet_at (done ++ x ++ ds ++ y) (length done + length x)).
      2: { replace (done ++ x ++ ds ++ y) with ((done ++ x ++ ds) ++ y) at 1 by (rewrite <- !app_assoc; reflexivity).
           replace (done ++ x ++ ds ++ y) with ((done ++ x) ++ ds ++ y) by (rewrite <- !app_assoc; reflexivity).
           replace (length done + length x + length ds)%nat with (length (done ++ x ++ ds)) by (rewrite !app_length; lia).
           replace (length done + length x)%nat with (length (done ++ x)) by (rewrite !app_length; lia). rewrite !octet_at_app, !text_app. unfold zlen. rewrite !app_length. lia. }
      unfold s. rewrite (proj1 (C129_edit (done ++ x ++ ds ++ y) rs (length done + length x) (length done + length x + length ds) ltac:(lia))).
      replace (firstn (length done + length x) (done ++ x ++ ds ++ y)) with (done ++ x).
      2: { replace (done ++ x ++ ds ++ y) with ((done ++ x) ++ ds ++ y) by (rewrite <- !app_assoc; reflexivity). rewrite <- app_length.
           rewrite firstn_app, firstn_all, Nat.sub_diag. cbn [firstn]. rewrite app_nil_r. reflexivity. }
      replace (skipn (length done + length x + length ds) (done ++ x ++ ds ++ y)) with y.
      2: { replace (done ++ x ++ ds ++ y) with ((done ++ x ++ ds) ++ y) by (rewrite <- !app_assoc; reflexivity).
           replace (length done + length x + length ds)%nat with (length (done ++ x ++ ds)) by (rewrite !app_length; lia).
           rewrite skipn_app, skipn_all, Nat.sub_diag. reflexivity. }
      replace (octet_at (done ++ x ++ ds ++ y) (length done + length x) + zlen (utf8_text rs)) with (zlen (utf8_text (done ++ x ++ rs))).
      2: { replace (done ++ x ++ ds ++ y) with ((done ++ x) ++ ds ++ y) by (rewrite <- !app_assoc; reflexivity). rewrite <- app_length, octet_at_app, !text_app. unfold zlen. rewrite !app_length. lia. }
      replace ((done ++ x) ++ rs ++ y) with ((done ++ x ++ rs) ++ y) by (rewrite <- !app_assoc; reflexivity).
      rewrite (H fuel ltac:(lia)). rewrite <- !app_assoc. reflexivity.
    - exists cs. split; [constructor; exact F|]. exists (S (S (length s))). intros fuel Hf. destruct fuel as [|fuel]; [lia|]. cbn [replace_all]. fold s.
      destruct (FIND (S fuel) Hf) as [(k & _ & (O & _))|(E & _)]; [exfalso; exact (F k O)|]. rewrite E. reflexivity. }
  destruct (H (length cs) cs [] (le_n _) C (Forall_nil _)) as (out & Z & enough & E). exists out. split; [exact Z|]. exists enough. exact E.
Qed.
Print Assumptions C129_replace_all.

(** Inside a codepoint the functions make octets that are no text: the second half of a codepoint is left. *)
Theorem C129_positions_needed : string_erase (utf8_text [0xE9]) 0 (Some 1) = Some [0xA9] /\ string_substr (utf8_text [0x20AC]) 0 2 = Some [0xE2; 0x82] /\
  string_substr (utf8_text [0x61]) 2 1 = None.
Proof. repeat split; vm_compute; reflexivity. Qed.
Print Assumptions C129_positions_needed.
(** "aéaé€": é becomes "e" and acute; "aaa": "aa" becomes a euro sign. *)
Example C129_example :
  let cs := [0x61; 0xE9; 0x61; 0xE9; 0x20AC] in
  replaced [0xE9] [0x65; 0x301] cs [0x61; 0x65; 0x301; 0x61; 0x65; 0x301; 0x20AC] /\
  replace_all 20 (utf8_text cs) (utf8_text [0xE9]) (utf8_text [0x65; 0x301]) 0 = Ok (Some (utf8_text [0x61; 0x65; 0x301; 0x61; 0x65; 0x301; 0x20AC])) /\
  replace_all 20 (utf8_text [0x61; 0x61; 0x61]) (utf8_text [0x61; 0x61]) (utf8_text [0x20AC]) 0 = Ok (Some (utf8_text [0x20AC; 0x61])) /\
  segments pairwise_boundary [0x61; 0x65; 0x301; 0x62] [[0x61]; [0x65; 0x301]; [0x62]] /\ string_erase (utf8_text [0x61; 0x65; 0x301; 0x62]) 1 (Some 3) = Some (utf8_text [0x61; 0x62]) /\
  string_insert (utf8_text cs) (octet_at cs 2) (utf8_text [0x20AC]) = Some (utf8_text [0x61; 0xE9; 0x20AC; 0x61; 0xE9; 0x20AC]).
Proof.
  cbv zeta. split; [|split; [vm_compute; reflexivity|split; [vm_compute; reflexivity|split; [|split; vm_compute; reflexivity]]]].
  2: { replace [[0x61]; [0x65; 0x301]; [0x62]] with (seg [0x61; 0x65; 0x301; 0x62]) by (vm_compute; reflexivity). apply seg_segments. }
  assert (Q : forall x y, (forall c, In c x -> c = 0x61) -> first_occurrence (x ++ [0xE9] ++ y) [0xE9] (length x)).
  { intros x y A. split; [exists x, y; auto|]. intros k K (u & v & E & L). assert (F : nth_error (x ++ [0xE9] ++ y) k = Some 0xE9) by (rewrite E, <- L, nth_error_app2, Nat.sub_diag by lia; reflexivity).
    rewrite nth_error_app1 in F by exact K. apply nth_error_In, A in F. discriminate. }
  apply (rep_first [0xE9] [0x65; 0x301] [0x61] [0x61; 0xE9; 0x20AC] [0x61; 0x65; 0x301; 0x20AC]); [apply Q; intros c [<-|[]]; reflexivity|].
  apply (rep_first [0xE9] [0x65; 0x301] [0x61] [0x20AC] [0x20AC]); [apply Q; intros c [<-|[]]; reflexivity|].
  constructor. intros k (x & y & E & _). destruct x as [|c [|? ?]]; discriminate.
Qed.
