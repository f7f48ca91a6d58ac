(** * Properties C92-C96: the standard algorithms on codepoint iterators

    Reading guide.  [std_distance] etc. (AlgoModel.v) are the algorithms of libstdc++ for
    bidirectional iterators, which the UTF-8 iterators are.  [a_text ops b e cs pos]: the codepoints
    [cs] lie in memory from [b] to [e], as a string or as a view in front of some codepoint, and
    [pos i] is where number [i] starts (TextSpec.v).  [first_with], [occurs_at],
    [first_occurrence], [lex_less]: AlgoSpec.v. *)
From Verif Require Import Prelude Utf8Model TextModel Utf8Spec TextSpec AlgoModel AlgoSpec LawfulProofs GraphemeText AlgoProofs UtfOrder.
Require Import ZifyBool ZifyNat.

Definition a_text (ops : cp_ops) (b e : Z) (cs : list Z) (pos : nat -> Z) : Prop :=
  string_in_memory ops b e cs pos \/ exists c, view_in_memory ops b e cs c pos.
(** The codepoints number [i] to [j - 1]. *)
Definition part (cs : list Z) (i j : nat) : list Z := firstn (j - i) (skipn i cs).

Lemma a_text_in ops b e cs pos : a_text ops b e cs pos ->
  exists c pos' inside, text_in ops b e cs c pos' inside /\ forall i, (i <= length cs)%nat -> pos i = pos' i.
Proof.
  intros [H|[c H]].
  - destruct (string_text _ _ _ _ _ H) as (pos' & inside & T & P). exists 0, pos', inside. split; [exact T|]. intros i Hi. symmetry. apply P. exact Hi.
  - destruct (view_text _ _ _ _ _ _ H) as (pos' & inside & T & P). exists c, pos', inside. split; [exact T|]. intros i Hi. symmetry. apply P. exact Hi.
Qed.
Definition text_walks {ops b e cs c pos inside} (T : text_in ops b e cs c pos inside) : walks ops (cs ++ [c]) pos :=
  lawful_walks _ _ _ _ (ti_lawful _ _ _ _ _ _ _ T).
Lemma part_sub cs c i j : (i <= j <= length cs)%nat -> sub (cs ++ [c]) i j = part cs i j.
Proof.
  intros H. unfold sub, part. rewrite skipn_app. rewrite firstn_app. rewrite skipn_length.
  replace (j - i - (length cs - i))%nat with O by lia. cbn [firstn]. apply app_nil_r.
Qed.
Lemma snoc_length (cs : list Z) c : length (cs ++ [c]) = S (length cs).
Proof. rewrite app_length. cbn. lia. Qed.
Lemma part_all cs : part cs 0 (length cs) = cs.
Proof. unfold part. cbn [skipn]. rewrite Nat.sub_0_r. apply firstn_all. Qed.

(** ** C92.  std::distance is the number of codepoints, as long as that is an int; std::advance
    by [n] moves by [n] codepoints, forwards or backwards. *)
Theorem C92_distance : forall ops b e cs pos i j fuel, a_text ops b e cs pos ->
  (i <= j <= length cs)%nat -> (j - i < fuel)%nat ->
  std_distance fuel ops (pos i) (pos j) =
  if Z.of_nat (j - i) <=? int_max then Ok (Z.of_nat (j - i)) else UB IntOverflow.
Proof.
  intros ops b e cs pos i j fuel H Hij Hf. destruct (a_text_in _ _ _ _ _ H) as (c & pos' & inside & T & P).
  rewrite !P by lia. unfold std_distance. rewrite (distance_at _ _ _ (text_walks T) (j - i)); try (rewrite snoc_length; lia); try lia.
  - reflexivity.
  - unfold is_int, int_min, int_max. lia.
Qed.
Print Assumptions C92_distance.
Theorem C92_length : forall ops b e cs pos fuel, a_text ops b e cs pos -> (length cs < fuel)%nat -> zlen cs <= int_max ->
  std_distance fuel ops b e = Ok (zlen cs).
Proof.
  intros ops b e cs pos fuel H Hf Hl. pose proof (C92_distance ops b e cs pos 0 (length cs) fuel H ltac:(lia) ltac:(lia)) as Q.
  destruct (a_text_in _ _ _ _ _ H) as (c & pos' & inside & T & P). rewrite !P in Q by lia.
  rewrite (ti_begin _ _ _ _ _ _ _ T), (ti_end _ _ _ _ _ _ _ T), Q. rewrite Nat.sub_0_r. fold (zlen cs).
  destruct (Z.leb_spec (zlen cs) int_max); [reflexivity|lia].
Qed.
Print Assumptions C92_length.
Theorem C92_advance : forall ops b e cs pos i n, a_text ops b e cs pos ->
  (i <= length cs)%nat -> 0 <= Z.of_nat i + n <= zlen cs ->
  std_advance ops (pos i) n = Ok (pos (Z.to_nat (Z.of_nat i + n))).
Proof.
  intros ops b e cs pos i n H Hi Hn. unfold zlen in Hn. destruct (a_text_in _ _ _ _ _ H) as (c & pos' & inside & T & P).
  rewrite !P by lia. apply (advance_at _ _ _ (text_walks T)); rewrite snoc_length; lia.
Qed.
Print Assumptions C92_advance.
Example C92_example : (* "aé€😀" is 10 octets and 4 codepoints; two on from é, three back from the end *)
  let cs := [0x61; 0xE9; 0x20AC; 0x1F600] in
  let ops := utf8_ops (string_buffer (utf8_text cs)) in
  a_text ops 0 10 cs (fun i => zlen (utf8_text (firstn i cs))) /\
  std_distance 9 ops 0 10 = Ok 4 /\ std_advance ops 1 2 = Ok 6 /\ std_advance ops 10 (-3) = Ok 1.
Proof.
  cbv zeta. split; [left; apply (utf8_string [0x61; 0xE9; 0x20AC; 0x1F600]); repeat constructor; unfold codepoint31; lia|].
  repeat split; vm_compute; reflexivity.
Qed.

(** ** C93.  std::find_if (std::find with equality to a value) stops at the first codepoint with the
    property, or at the end of the range; std::count_if counts them. *)
Theorem C93_find : forall ops b e cs pos pred i j fuel, a_text ops b e cs pos ->
  (i <= j <= length cs)%nat -> (j - i < fuel)%nat ->
  exists k, std_find_if fuel ops pred (pos i) (pos j) = Ok (pos (i + k)%nat) /\ first_with pred (part cs i j) k.
Proof.
  intros ops b e cs pos pred i j fuel H Hij Hf. destruct (a_text_in _ _ _ _ _ H) as (c & pos' & inside & T & P).
  exists (find_index pred (part cs i j)). split; [|apply find_index_spec].
  rewrite !(P i), !(P j) by lia. rewrite (find_at _ _ _ (text_walks T) pred (j - i)) by (try rewrite snoc_length; lia).
  rewrite part_sub by lia. rewrite P; [reflexivity|].
  pose proof (find_index_le pred (part cs i j)) as Q. rewrite <- (part_sub cs c), sub_length in Q by (try rewrite snoc_length; lia). rewrite part_sub in Q by lia. lia.
Qed.
Print Assumptions C93_find.
Theorem C93_first_with_unique : forall pred t k k', first_with pred t k -> first_with pred t k' -> k = k'.
Proof. exact first_with_unique. Qed.
Print Assumptions C93_first_with_unique.
Theorem C93_count : forall ops b e cs pos pred i j fuel, a_text ops b e cs pos ->
  (i <= j <= length cs)%nat -> (j - i < fuel)%nat -> zlen (List.filter pred (part cs i j)) <= int_max ->
  std_count_if fuel ops pred (pos i) (pos j) = Ok (zlen (List.filter pred (part cs i j))).
Proof.
  intros ops b e cs pos pred i j fuel H Hij Hf Hl. destruct (a_text_in _ _ _ _ _ H) as (c & pos' & inside & T & P).
  rewrite !P by lia. unfold std_count_if. rewrite <- (part_sub cs c) in Hl |- * by lia.
  rewrite (count_at _ _ _ (text_walks T) pred (j - i)) by (try rewrite snoc_length; lia). reflexivity.
Qed.
Print Assumptions C93_count.
Example C93_example : (* in "aé€é": the first é is at octet 1, there are two *)
  let cs := [0x61; 0xE9; 0x20AC; 0xE9] in
  let ops := utf8_ops (string_buffer (utf8_text cs)) in
  std_find_if 9 ops (fun c => c =? 0xE9) 0 8 = Ok 1 /\ std_find_if 9 ops (fun c => c =? 0xE9) 3 8 = Ok 6 /\
  std_find_if 9 ops (fun c => c =? 0xE8) 0 8 = Ok 8 /\ std_count_if 9 ops (fun c => c =? 0xE9) 0 8 = Ok 2.
Proof. repeat split; vm_compute; reflexivity. Qed.

(** ** C94.  std::equal and std::lexicographical_compare of two texts, each in either encoding,
    compare the codepoints, *)
Theorem C94_equal : forall ops b e cs pos ops' b' e' cs' pos' i j k fuel, a_text ops b e cs pos -> a_text ops' b' e' cs' pos' ->
  (i <= j <= length cs)%nat -> (k + (j - i) <= length cs')%nat -> (j - i < fuel)%nat ->
  exists r, std_equal fuel ops ops' (pos i) (pos j) (pos' k) = Ok r /\
    (r = true <-> part cs i j = part cs' k (k + (j - i))).
Proof.
  intros ops b e cs pos ops' b' e' cs' pos' i j k fuel H H' Hij Hk Hf.
  destruct (a_text_in _ _ _ _ _ H) as (c & p & inside & T & P). destruct (a_text_in _ _ _ _ _ H') as (c' & p' & inside' & T' & P').
  rewrite !P, P' by lia. rewrite <- (part_sub cs c), <- (part_sub cs' c') by lia.
  apply (equal_at _ _ _ _ _ _ (text_walks T) (text_walks T')); try rewrite snoc_length; lia.
Qed.
Print Assumptions C94_equal.
Theorem C94_less : forall ops b e cs pos ops' b' e' cs' pos' i j k l fuel, a_text ops b e cs pos -> a_text ops' b' e' cs' pos' ->
  (i <= j <= length cs)%nat -> (k <= l <= length cs')%nat -> (j - i < fuel)%nat ->
  exists r, std_lexicographical_compare fuel ops ops' (pos i) (pos j) (pos' k) (pos' l) = Ok r /\
    (r = true <-> lex_less (part cs i j) (part cs' k l)).
Proof.
  intros ops b e cs pos ops' b' e' cs' pos' i j k l fuel H H' Hij Hk Hf.
  destruct (a_text_in _ _ _ _ _ H) as (c & p & inside & T & P). destruct (a_text_in _ _ _ _ _ H') as (c' & p' & inside' & T' & P').
  rewrite !P, !P' by lia. rewrite <- (part_sub cs c), <- (part_sub cs' c') by lia.
  apply (lex_at _ _ _ _ _ _ (text_walks T) (text_walks T') (j - i)); try rewrite snoc_length; lia.
Qed.
Print Assumptions C94_less.
(** which for UTF-8 texts is the order and the equality of the octets (std::string's operators). *)
Theorem C94_octets : forall cs cs', Forall codepoint31 cs -> Forall codepoint31 cs' ->
  (lex_less (utf8_text cs) (utf8_text cs') <-> lex_less cs cs') /\ (utf8_text cs = utf8_text cs' <-> cs = cs').
Proof.
  intros cs cs' F F'. split; [exact (text_order cs cs' F F')|]. split; [exact (text_inj cs cs' F F')|]. intros ->. reflexivity.
Qed.
Print Assumptions C94_octets.
Example C94_example : (* "z" < "é" < "€" < "😀" *)
  let mem c := string_buffer (utf8_text [c]) in
  std_lexicographical_compare 3 (utf8_ops (mem 0x7A)) (utf8_ops (mem 0xE9)) 0 1 0 2 = Ok true /\
  std_lexicographical_compare 3 (utf8_ops (mem 0x20AC)) (utf8_ops (mem 0xE9)) 0 3 0 2 = Ok false /\
  std_equal 3 (utf8_ops (mem 0x20AC)) (utf32_ops [0x20AC]) 0 3 0 = Ok true.
Proof. repeat split; vm_compute; reflexivity. Qed.

(** ** C95.  std::search finds the first occurrence of a text in a text, *)
Theorem C95_search : forall ops b e cs pos ops' b' e' cs' pos' i j k l fuel, a_text ops b e cs pos -> a_text ops' b' e' cs' pos' ->
  (i <= j <= length cs)%nat -> (k <= l <= length cs')%nat -> (j - i < fuel)%nat ->
  (exists n, std_search fuel ops ops' (pos i) (pos j) (pos' k) (pos' l) = Ok (pos (i + n)%nat) /\
     first_occurrence (part cs i j) (part cs' k l) n) \/
  (std_search fuel ops ops' (pos i) (pos j) (pos' k) (pos' l) = Ok (pos j) /\
     forall n, ~ occurs_at (part cs i j) (part cs' k l) n).
Proof.
  intros ops b e cs pos ops' b' e' cs' pos' i j k l fuel H H' Hij Hk Hf.
  destruct (a_text_in _ _ _ _ _ H) as (c & p & inside & T & P). destruct (a_text_in _ _ _ _ _ H') as (c' & p' & inside' & T' & P').
  rewrite !(P i), !(P j), !P' by lia. rewrite (search_at _ _ _ _ _ _ (text_walks T) (text_walks T')) by (try rewrite snoc_length; lia).
  rewrite !part_sub by lia.
  assert (Lp : length (part cs i j) = (j - i)%nat). { rewrite <- (part_sub cs c) by lia. apply sub_length. rewrite snoc_length. lia. }
  destruct (search_index_spec (part cs i j) (part cs' k l)) as [F|[E N]].
  - left. exists (search_index (part cs i j) (part cs' k l)). split; [|exact F]. rewrite P; [reflexivity|].
    destruct F as [(x & y & Q & Lx) _]. rewrite <- Lx. apply (f_equal (@length Z)) in Q. rewrite !app_length in Q. lia.
  - right. split; [|exact N]. rewrite E, Lp. do 2 f_equal. lia.
Qed.
Print Assumptions C95_search.
(** and the occurrences of the octets of a text (what std::string::find looks for) are the
    occurrences of its codepoints, never across the boundaries of codepoints. *)
Theorem C95_octets : forall t p before after, Forall codepoint31 t -> Forall codepoint31 p -> p <> [] ->
  (utf8_text t = before ++ utf8_text p ++ after <->
   exists x y, t = x ++ p ++ y /\ before = utf8_text x /\ after = utf8_text y).
Proof. exact text_substring. Qed.
Print Assumptions C95_octets.
Example C95_example : (* "b€" in "ab€b€": at octet 1; "€a": nowhere *)
  let t := [0x61; 0x62; 0x20AC; 0x62; 0x20AC] in
  let ops := utf8_ops (string_buffer (utf8_text t)) in
  std_search 9 ops (utf8_ops (string_buffer (utf8_text [0x62; 0x20AC]))) 0 9 0 4 = Ok 1 /\
  std_search 9 ops (utf8_ops (string_buffer (utf8_text [0x20AC; 0x61]))) 0 9 0 4 = Ok 9 /\
  first_occurrence t [0x62; 0x20AC] 1.
Proof.
  cbv zeta. split; [vm_compute; reflexivity|]. split; [vm_compute; reflexivity|]. split.
  - exists [0x61], [0x62; 0x20AC]. split; reflexivity.
  - intros k' Hk (x & y & E & Lx). destruct x; [discriminate|cbn in Lx; lia].
Qed.

(** ** C96.  std::reverse_copy delivers the codepoints in reverse order. *)
Theorem C96_reverse_copy : forall ops b e cs pos i j fuel out, a_text ops b e cs pos ->
  (i <= j <= length cs)%nat -> (j - i < fuel)%nat ->
  std_reverse_copy fuel ops (pos i) (pos j) out = Ok (out ++ rev (part cs i j)).
Proof.
  intros ops b e cs pos i j fuel out H Hij Hf. destruct (a_text_in _ _ _ _ _ H) as (c & pos' & inside & T & P).
  rewrite !P by lia. rewrite <- (part_sub cs c) by lia.
  apply (reverse_copy_at _ _ _ (text_walks T) (j - i)); try rewrite snoc_length; lia.
Qed.
Print Assumptions C96_reverse_copy.
Example C96_example :
  std_reverse_copy 9 (utf8_ops (string_buffer (utf8_text [0x61; 0xE9; 0x20AC]))) 0 6 [] = Ok [0x20AC; 0xE9; 0x61].
Proof. vm_compute. reflexivity. Qed.
