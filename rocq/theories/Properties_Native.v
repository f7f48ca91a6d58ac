(** * Property C128: std::string's own comparison and search, on UTF-8 texts

    A client who has texts in utf8_strings compares and searches their [native_string]s with std::string's operators.  [lex_less],
    [occurs_at] (AlgoSpec.v): lexicographic order, occurrences.  [octet_at cs k]: where codepoint number [k] of [cs] begins in the string. *)
From Verif Require Import Prelude Utf8Model TextModel Utf8Spec UnicodeSpec TextSpec Utf8Proofs LawfulProofs AlgoModel AlgoSpec AlgoProofs UtfOrder NativeModel NativeProofs
  Properties_Algorithms.
Require Import ZifyBool ZifyNat.

Definition octet_at (cs : list Z) (k : nat) : Z := zlen (utf8_text (firstn k cs)).

(** ** Any two strings: a total order on the octets; nothing is read outside the strings. *)
Theorem C128_compare : forall s t,
  (exists r, string_compare s t = Ok r /\ (r < 0 <-> lex_less s t) /\ (r = 0 <-> s = t)) /\
  (exists r, string_equal s t = Ok r /\ (r = true <-> s = t)) /\
  (exists r, string_less s t = Ok r /\ (r = true <-> lex_less s t)).
Proof.
  intros s t. split; [exact (string_compare_ok s t)|]. split; [exact (string_equal_ok s t)|].
  destruct (string_compare_ok s t) as (r & E & L & _). unfold string_less. rewrite E. cbn [bind]. eexists. split; [reflexivity|]. rewrite <- L. lia.
Qed.
Print Assumptions C128_compare.
(** Two UTF-8 texts: the order of the codepoints, and == is equality of the texts. *)
Theorem C128_compare_texts : forall cs ds, Forall codepoint31 cs -> Forall codepoint31 ds ->
  (exists r, string_compare (utf8_text cs) (utf8_text ds) = Ok r /\ (r < 0 <-> lex_less cs ds) /\ (r = 0 <-> cs = ds)) /\
  (exists r, string_equal (utf8_text cs) (utf8_text ds) = Ok r /\ (r = true <-> cs = ds)) /\
  (exists r, string_less (utf8_text cs) (utf8_text ds) = Ok r /\ (r = true <-> lex_less cs ds)).
Proof.
  intros cs ds C D. destruct (C94_octets cs ds C D) as (L & E). destruct (C128_compare (utf8_text cs) (utf8_text ds)) as ((r & A & A1 & A2) & (q & B & B1) & (p & P & P1)).
  split; [exists r; tauto|]. split; [exists q; tauto|]. exists p. tauto.
Qed.
Print Assumptions C128_compare_texts.
(** operator< of the strings answers what std::lexicographical_compare answers on their codepoint iterators. *)
Theorem C128_less_agrees : forall cs ds fuel, Forall codepoint31 cs -> Forall codepoint31 ds -> (length cs < fuel)%nat ->
  let s := utf8_text cs in let t := utf8_text ds in
  string_less s t = std_lexicographical_compare fuel (utf8_ops (string_buffer s)) (utf8_ops (string_buffer t)) 0 (zlen s) 0 (zlen t).
Proof.
  intros cs ds fuel C D Hf. cbv zeta. destruct (C128_compare_texts cs ds C D) as (_ & _ & (r & E & R)). rewrite E.
  assert (A : forall l, Forall codepoint31 l -> exists pos, a_text (utf8_ops (string_buffer (utf8_text l))) 0 (zlen (utf8_text l)) l pos /\ pos O = 0 /\ pos (length l) = zlen (utf8_text l)).
  { intros l F. eexists. split; [left; constructor; exact F|]. split; [reflexivity|]. cbv beta. rewrite firstn_all. reflexivity. }
  destruct (A cs C) as (p & Tp & P0 & P1). destruct (A ds D) as (q & Tq & Q0 & Q1).
  destruct (C94_less _ _ _ _ _ _ _ _ _ _ 0 (length cs) 0 (length ds) fuel Tp Tq ltac:(lia) ltac:(lia) ltac:(lia)) as (r' & E' & R').
  rewrite P0, P1, Q0, Q1 in E'. rewrite E'. rewrite !part_all in R'. f_equal. clear - R R'. destruct r, r'; try reflexivity; [assert (false = true) by tauto|assert (false = true) by tauto]; discriminate.
Qed.
Print Assumptions C128_less_agrees.

(** ** Searching *)
Lemma text_app x y : utf8_text (x ++ y) = utf8_text x ++ utf8_text y.
Proof. apply flat_map_app. Qed.
Lemma occurs_text cs ds m : Forall codepoint31 cs -> Forall codepoint31 ds -> ds <> [] ->
  (occurs_at (utf8_text cs) (utf8_text ds) m <-> exists k, occurs_at cs ds k /\ Z.of_nat m = octet_at cs k).
Proof.
  intros C D N. unfold octet_at. split.
  - intros (a & b & E & L). apply (C95_octets cs ds a b C D N) in E. destruct E as (x & y & -> & -> & ->).
    exists (length x). split; [exists x, y; auto|]. rewrite firstn_app, firstn_all, Nat.sub_diag. cbn [firstn]. rewrite app_nil_r. unfold zlen. congruence.
  - intros (k & (x & y & -> & <-) & E). rewrite firstn_app, firstn_all, Nat.sub_diag in E. cbn [firstn] in E. rewrite app_nil_r in E. unfold zlen in E.
    exists (utf8_text x), (utf8_text y). split; [rewrite !text_app; reflexivity|lia].
Qed.
Lemma occurs_bound s t k : occurs_at s t k -> (k <= length s)%nat.
Proof. intros (x & y & -> & <-). rewrite app_length. lia. Qed.
Lemma text_nonempty l : Forall codepoint31 l -> l <> [] -> (0 < length (utf8_text l))%nat.
Proof.
  intros F N. destruct F as [|c l C F]; [contradiction|]. unfold utf8_text. cbn [flat_map]. rewrite app_length.
  destruct (utf8_encode_chunk c C) as (a & t & E & _). rewrite E. cbn [length]. lia.
Qed.
Lemma octet_at_less cs i j : Forall codepoint31 cs -> (i < j <= length cs)%nat -> octet_at cs i < octet_at cs j.
Proof.
  intros C I. unfold octet_at. assert (E : firstn j cs = firstn i cs ++ skipn i (firstn j cs)).
  { rewrite <- (firstn_skipn i (firstn j cs)) at 1. rewrite firstn_firstn. replace (Nat.min i j) with i by lia. reflexivity. }
  rewrite E, text_app. unfold zlen. rewrite app_length.
  assert (0 < length (utf8_text (skipn i (firstn j cs))))%nat; [|lia]. apply text_nonempty.
  - rewrite Forall_forall in *. intros x X. apply C. rewrite <- (firstn_skipn j cs). apply in_or_app. left. rewrite <- (firstn_skipn i (firstn j cs)). apply in_or_app. right. exact X.
  - intros Q. apply (f_equal (@length Z)) in Q. rewrite skipn_length, firstn_length in Q. cbn in Q. lia.
Qed.
(** Any two strings, the second possibly empty: the first occurrence from octet [from] on, the last up to octet [upto]. *)
Theorem C128_find_octets : forall s t from fuel, (S (length s) < fuel)%nat ->
  (exists k, string_find fuel s t (Z.of_nat from) = Ok (Some (Z.of_nat k)) /\
     (from <= k)%nat /\ occurs_at s t k /\ forall i, (from <= i < k)%nat -> ~ occurs_at s t i) \/
  (string_find fuel s t (Z.of_nat from) = Ok None /\ forall i, (from <= i)%nat -> ~ occurs_at s t i).
Proof.
  intros s t from fuel Hf. destruct (string_find_ok s t from fuel Hf) as ([p|] & E & P); rewrite E; cbn [found_from] in P; [|right; auto].
  destruct P as (k & -> & P). left. exists k. auto.
Qed.
Print Assumptions C128_find_octets.
Theorem C128_rfind_octets : forall s t upto fuel, (length s < fuel)%nat ->
  (exists k, string_rfind fuel s t (Z.of_nat upto) = Ok (Some (Z.of_nat k)) /\
     (k <= upto)%nat /\ occurs_at s t k /\ forall i, (k < i <= upto)%nat -> ~ occurs_at s t i) \/
  (string_rfind fuel s t (Z.of_nat upto) = Ok None /\ forall i, (i <= upto)%nat -> ~ occurs_at s t i).
Proof.
  intros s t upto fuel Hf. destruct (string_rfind_ok s t upto fuel Hf) as ([p|] & E & P); rewrite E; cbn [found_upto] in P; [|right; auto].
  destruct P as (k & -> & P). left. exists k. auto.
Qed.
Print Assumptions C128_rfind_octets.
(** find, from any octet of the string (a boundary or not): the first codepoint occurrence that begins there or later, or npos. *)
Theorem C128_find : forall cs ds from fuel, Forall codepoint31 cs -> Forall codepoint31 ds -> ds <> [] -> (S (length (utf8_text cs)) < fuel)%nat -> 0 <= from ->
  (exists k, string_find fuel (utf8_text cs) (utf8_text ds) from = Ok (Some (octet_at cs k)) /\
     from <= octet_at cs k /\ occurs_at cs ds k /\ forall j, (j < k)%nat -> from <= octet_at cs j -> ~ occurs_at cs ds j) \/
  (string_find fuel (utf8_text cs) (utf8_text ds) from = Ok None /\
     forall j, from <= octet_at cs j -> ~ occurs_at cs ds j).
Proof.
  intros cs ds from fuel C D N Hf Hz. destruct (string_find_ok (utf8_text cs) (utf8_text ds) (Z.to_nat from) fuel Hf) as (r & E & P).
  rewrite Z2Nat.id in E by lia. rewrite E. destruct r as [p|]; cbn [found_from] in P.
  - destruct P as (m & -> & M & O & P). apply (occurs_text cs ds m C D N) in O. destruct O as (k & O & Ek). left. exists k. rewrite Ek. split; [reflexivity|]. split; [lia|]. split; [exact O|].
    intros j J F Oj. pose proof (octet_at_less cs j k C ltac:(apply occurs_bound in O; lia)) as Q.
    assert (Zj : 0 <= octet_at cs j) by (unfold octet_at, zlen; lia).
    apply (P (Z.to_nat (octet_at cs j)) ltac:(lia)). apply (occurs_text cs ds _ C D N). exists j. split; [exact Oj|lia].
  - right. split; [reflexivity|]. intros j F Oj. apply (P (Z.to_nat (octet_at cs j)) ltac:(lia)). apply (occurs_text cs ds _ C D N). exists j. split; [exact Oj|].
    unfold octet_at, zlen. lia.
Qed.
Print Assumptions C128_find.
(** rfind, up to any octet: the last codepoint occurrence that begins there or before. *)
Theorem C128_rfind : forall cs ds upto fuel, Forall codepoint31 cs -> Forall codepoint31 ds -> ds <> [] -> (length (utf8_text cs) < fuel)%nat -> 0 <= upto ->
  (exists k, string_rfind fuel (utf8_text cs) (utf8_text ds) upto = Ok (Some (octet_at cs k)) /\
     octet_at cs k <= upto /\ occurs_at cs ds k /\ forall j, (k < j)%nat -> octet_at cs j <= upto -> ~ occurs_at cs ds j) \/
  (string_rfind fuel (utf8_text cs) (utf8_text ds) upto = Ok None /\
     forall j, octet_at cs j <= upto -> ~ occurs_at cs ds j).
Proof.
  intros cs ds upto fuel C D N Hf Hz. destruct (string_rfind_ok (utf8_text cs) (utf8_text ds) (Z.to_nat upto) fuel Hf) as (r & E & P).
  rewrite Z2Nat.id in E by lia. rewrite E. destruct r as [p|]; cbn [found_upto] in P.
  - destruct P as (m & -> & M & O & P). apply (occurs_text cs ds m C D N) in O. destruct O as (k & O & Ek). left. exists k. rewrite Ek. split; [reflexivity|]. split; [lia|]. split; [exact O|].
    intros j J F Oj. pose proof (octet_at_less cs k j C ltac:(apply occurs_bound in Oj; lia)) as Q.
    apply (P (Z.to_nat (octet_at cs j)) ltac:(lia)). apply (occurs_text cs ds _ C D N). exists j. split; [exact Oj|].
    unfold octet_at, zlen. lia.
  - right. split; [reflexivity|]. intros j F Oj. apply (P (Z.to_nat (octet_at cs j)) ltac:(lia)). apply (occurs_text cs ds _ C D N). exists j. split; [exact Oj|].
    unfold octet_at, zlen. lia.
Qed.
Print Assumptions C128_rfind.
(** find of the strings answers what std::search answers on their codepoint iterators (which says the end where find says npos). *)
Theorem C128_find_agrees : forall cs ds fuel fuel', Forall codepoint31 cs -> Forall codepoint31 ds -> ds <> [] ->
  (S (length (utf8_text cs)) < fuel)%nat -> (length cs < fuel')%nat ->
  let s := utf8_text cs in let t := utf8_text ds in
  exists r, string_find fuel s t 0 = Ok r /\
    std_search fuel' (utf8_ops (string_buffer s)) (utf8_ops (string_buffer t)) 0 (zlen s) 0 (zlen t) = Ok (match r with Some p => p | None => zlen s end).
Proof.
  intros cs ds fuel fuel' C D N Hf Hf'. cbv zeta.
  assert (Tp : a_text (utf8_ops (string_buffer (utf8_text cs))) 0 (zlen (utf8_text cs)) cs (fun i => zlen (utf8_text (firstn i cs)))) by (left; constructor; exact C).
  assert (Tq : a_text (utf8_ops (string_buffer (utf8_text ds))) 0 (zlen (utf8_text ds)) ds (fun i => zlen (utf8_text (firstn i ds)))) by (left; constructor; exact D).
  pose proof (C95_search _ _ _ _ _ _ _ _ _ _ 0 (length cs) 0 (length ds) fuel' Tp Tq ltac:(lia) ltac:(lia) ltac:(lia)) as X.
  cbv beta in X. rewrite !firstn_all, !part_all in X. cbn [firstn] in X. change (zlen (utf8_text [])) with 0 in X. cbn [Nat.add] in X.
  destruct (C128_find cs ds 0 fuel C D N Hf ltac:(lia)) as [(k & E & _ & O & F)|(E & F)]; rewrite E; eexists; (split; [reflexivity|]).
  - destruct X as [(n & -> & On & Fn)|(_ & Fn)]; [|exfalso; exact (Fn k O)]. replace n with k; [reflexivity|].
    destruct (Nat.lt_trichotomy k n) as [L|[L|L]]; [exfalso; exact (Fn k L O)|exact L|].
    exfalso. apply (F n L); [unfold octet_at, zlen; lia|exact On].
  - destruct X as [(n & _ & On & _)|(X & _)]; [|exact X]. exfalso. apply (F n); [unfold octet_at, zlen; lia|exact On].
Qed.
Print Assumptions C128_find_agrees.

(** Of octets that are no shortest encodings none of this holds: the same codepoint in two spellings is not ==, and one octet of a codepoint is found in it. *)
Theorem C128_conditions_needed :
  string_equal [0xC1; 0xA1] (utf8_text [0x61]) = Ok false /\
  std_equal 3 (utf8_ops (string_buffer [0xC1; 0xA1])) (utf8_ops (string_buffer [0x61])) 0 2 0 = Ok true /\
  string_find 9 (utf8_text [0xE9]) [0xA9] 0 = Ok (Some 1).
Proof. repeat split; vm_compute; reflexivity. Qed.
Print Assumptions C128_conditions_needed.
(** e with acute, euro, e with acute. *)
Example C128_example :
  let cs := [0xE9; 0x20AC; 0xE9] in
  Forall codepoint31 cs /\ occurs_at cs [0xE9] 0 /\ octet_at cs 2 = 5 /\
  string_find 10 (utf8_text cs) (utf8_text [0xE9]) 0 = Ok (Some 0) /\ string_find 10 (utf8_text cs) (utf8_text [0xE9]) 1 = Ok (Some 5) /\
  string_find 10 (utf8_text cs) (utf8_text [0xE9]) 6 = Ok None /\ string_find 10 (utf8_text cs) [] 7 = Ok (Some 7) /\ string_rfind 10 (utf8_text cs) [] 9 = Ok (Some 7) /\ string_rfind 10 (utf8_text cs) (utf8_text [0xE9]) 4 = Ok (Some 0) /\
  string_rfind 10 (utf8_text cs) (utf8_text [0x20AC; 0xE9]) 100 = Ok (Some 2) /\
  string_compare (utf8_text cs) (utf8_text [0xE9; 0x20AC]) = Ok 2 /\ string_less (utf8_text [0x7A]) (utf8_text cs) = Ok true /\ string_equal (utf8_text cs) (utf8_text cs) = Ok true.
Proof.
  cbv zeta. split; [repeat constructor; unfold codepoint31; lia|]. split; [exists [], [0x20AC; 0xE9]; split; reflexivity|]. repeat split; vm_compute; reflexivity.
Qed.
