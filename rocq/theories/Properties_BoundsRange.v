(** * Property C17, exactly: check and enforce on a range inside a buffer

    [string_of mem b e]: the octets of the range, as a string of their own. *)
From Verif Require Import Prelude Utf8Model TextModel Utf8Spec Utf8Proofs LawfulProofs IterProofs ByteProofs BoundsProofs.
Require Import ZifyBool ZifyNat.

Definition string_of (mem : list Z) (b e : Z) : list Z := firstn (Z.to_nat (e - b)) (skipn (Z.to_nat b) mem).

Lemma string_of_len mem b e : 0 <= b <= e -> e < zlen mem -> zlen (string_of mem b e) = e - b.
Proof. intros H He. unfold string_of, zlen in *. rewrite firstn_length, skipn_length. lia. Qed.
Lemma nth_firstn {A} (l : list A) d : forall n k, (k < n)%nat -> nth k (firstn n l) d = nth k l d.
Proof. induction l as [|x l IH]; intros [|n] [|k] H; try lia; try reflexivity. cbn [firstn nth]. apply IH. lia. Qed.
Lemma nth_skipn {A} (l : list A) d : forall n k, nth k (skipn n l) d = nth (n + k) l d.
Proof. induction l as [|x l IH]; intros [|n] k; try reflexivity; [destruct k; reflexivity|]. cbn [skipn plus nth]. apply IH. Qed.
Lemma string_of_octet mem b e k : 0 <= b <= e -> e < zlen mem -> 0 <= k < e - b -> octet (string_of mem b e) k = octet mem (b + k).
Proof.
  intros H He Hk. unfold octet, string_of. rewrite nth_firstn by lia. rewrite nth_skipn. f_equal. lia.
Qed.
Lemma string_of_bytes mem b e : Forall is_byte mem -> Forall is_byte (string_of mem b e).
Proof.
  intros F. apply Forall_forall. intros x I. rewrite Forall_forall in F. apply F. unfold string_of in I.
  assert (J : In x (skipn (Z.to_nat b) mem)) by (rewrite <- (firstn_skipn (Z.to_nat (e - b)) (skipn (Z.to_nat b) mem)); apply in_or_app; left; exact I).
  rewrite <- (firstn_skipn (Z.to_nat b) mem). apply in_or_app. right. exact J.
Qed.

(** check on a range with octets in it: the answer for these octets alone, and the octet at the end announces no sequence. *)
Theorem C17_check_of_a_range_partial : forall mem b e, Forall is_byte mem -> 0 <= b < e -> e < zlen mem ->
  (bounds_check mem b e = Ok true <->
   bounds_check (string_buffer (string_of mem b e)) 0 (e - b) = Ok true /\ octet mem e < 192).
Proof.
  intros mem b e F Hb He. set (s := string_of mem b e).
  assert (Ls : zlen s = e - b) by (apply string_of_len; lia).
  assert (Fs : Forall is_byte s) by (apply string_of_bytes; assumption).
  destruct (check_iff mem b e F ltac:(lia) He) as (r1 & -> & H1).
  destruct (check_iff (string_buffer s) 0 (e - b) (buffer_bytes s Fs) ltac:(lia) ltac:(rewrite buffer_len; lia)) as (r2 & -> & H2).
  assert (O : forall k, 0 <= k < e - b -> octet (string_buffer s) k = octet mem (b + k)).
  { intros k Hk. rewrite octet_buffer. apply string_of_octet; lia. }
  assert (OE : octet (string_buffer s) (e - b) = 0) by (rewrite octet_buffer, <- Ls; apply octet_end).
  assert (X : r1 = true <-> r2 = true /\ octet mem e < 192).
  { rewrite H1, H2. rewrite O by lia. rewrite Z.add_0_r. split.
    - intros (C & P). split; [split; [exact C|]|].
      + intros p Hp Hn. destruct (Z.eq_dec p (e - b)) as [->|Ne]; [unfold bad; rewrite OE; reflexivity|].
        specialize (P (b + p) ltac:(lia) ltac:(lia)). unfold bad in *. rewrite O by lia. lia.
      + specialize (P e ltac:(lia) ltac:(lia)). unfold bad in P. destruct (Z.leb_spec 192 (octet mem e)) as [Q|Q]; [|lia]. cbn [andb] in P.
        assert (1 <= announced_len (octet mem e)); [|lia]. unfold announced_len. repeat (match goal with |- context [if ?x then _ else _] => destruct x end); lia.
    - intros ((C & P) & Q). split; [exact C|]. intros p Hp Hn. destruct (Z.eq_dec p e) as [->|Ne]; [unfold bad; lia|].
      specialize (P (p - b) ltac:(lia) ltac:(lia)). unfold bad in *. rewrite O in P by lia. replace (b + (p - b)) with p in P by lia. lia. }
  split; [intros [= Y]; destruct (proj1 X Y) as (-> & Q); auto|intros ([= Y] & Q); f_equal; apply X; auto].
Qed.
Print Assumptions C17_check_of_a_range_partial.
(** An empty range: the octet at its end is looked at all the same. *)
Theorem C17_check_of_an_empty_range_partial : forall mem e, Forall is_byte mem -> 0 <= e < zlen mem ->
  (bounds_check mem e e = Ok true <-> ~ continuation_octet (octet mem e)).
Proof.
  intros mem e F He. destruct (check_iff mem e e F ltac:(lia) ltac:(lia)) as (r & -> & H). split.
  - intros [= ->]. apply H. reflexivity.
  - intros C. f_equal. apply H. split; [exact C|]. intros; lia.
Qed.
Print Assumptions C17_check_of_an_empty_range_partial.

Lemma wr_inv mem p v m : wr mem p v = Ok m -> (0 <= p < zlen mem) /\ length m = length mem /\
  (forall k, 0 <= k -> octet m k = if k =? p then v else octet mem k).
Proof.
  intros H. assert (P : 0 <= p < zlen mem).
  { unfold wr in H. destruct (Z.leb_spec 0 p), (Z.ltb_spec p (zlen mem)); cbn [andb] in H; try discriminate. lia. }
  split; [exact P|]. destruct (wr_ok mem p v P) as (m' & E & L & O). rewrite H in E. injection E as <-. auto.
Qed.
Lemma byte_wr mem p m : Forall is_byte mem -> wr mem p 63 = Ok m -> Forall is_byte m.
Proof.
  intros F W. destruct (wr_inv _ _ _ _ W) as (P & L & O). apply bytes_of_octets. intros k Hk. rewrite O by lia.
  destruct (k =? p); [unfold is_byte; lia|]. apply octet_byte; assumption.
Qed.
Lemma front_63 : forall fuel mem b ret mem' b' r, Forall is_byte mem -> enforce_front fuel mem b ret = Ok (mem', b', r) ->
  forall k, 0 <= k -> (octet mem' k = octet mem k \/ octet mem' k = 63) /\
    (0 <= b <= k -> (forall i, b <= i <= k -> continuation_octet (octet mem i)) -> octet mem' k = 63).
Proof.
  induction fuel as [|f IH]; intros mem b ret mem' b' r F E k Hk; [discriminate|]. cbn [enforce_front] in E.
  destruct (rd mem b) as [x| |] eqn:R; [|discriminate|discriminate]. cbn [bind] in E.
  assert (Hb : 0 <= b < zlen mem).
  { unfold rd in R. destruct (Z.ltb_spec b 0); [discriminate|]. destruct (nth_error mem (Z.to_nat b)) eqn:Q; [|discriminate].
    assert (Z.to_nat b < length mem)%nat by (apply nth_error_Some; congruence). unfold zlen. lia. }
  assert (x = octet mem b) by (rewrite rd_octet in R by lia; congruence). subst x.
  rewrite is_continuation_spec in E by (apply octet_byte; assumption). destruct (is_cont (octet mem b)) eqn:C.
  - destruct (wr mem b 63) as [m| |] eqn:W; [|discriminate|discriminate]. cbn [bind] in E.
    destruct (padd m b 1) as [q| |] eqn:Pq; [|discriminate|discriminate]. cbn [bind] in E.
    assert (q = b + 1) by (unfold padd in Pq; destruct (_ && _); congruence). subst q.
    destruct (wr_inv _ _ _ _ W) as (_ & L & O). destruct (IH m (b + 1) false mem' b' r (byte_wr _ _ _ F W) E k Hk) as (A & B).
    rewrite O in A by lia. split.
    + destruct (k =? b); [right; destruct A; assumption|exact A].
    + intros Hk' All. destruct (Z.eq_dec k b) as [->|Ne].
      * rewrite Z.eqb_refl in A. destruct A; assumption.
      * apply B; [lia|]. intros i Hi. rewrite O by lia. destruct (Z.eqb_spec i b); [lia|]. apply All. lia.
  - injection E as <- <- <-. split; [left; reflexivity|]. intros Hk' All. exfalso.
    specialize (All b ltac:(lia)). apply is_cont_iff in All. congruence.
Qed.
Lemma back_63 : forall n mem b e w ret mem' r, enforce_back n mem b e w ret = Ok (mem', r) ->
  forall k, 0 <= k -> octet mem' k = octet mem k \/ octet mem' k = 63.
Proof.
  induction n as [|n IH]; intros mem b e w ret mem' r E k Hk; cbn [enforce_back] in E; [injection E as <- <-; left; reflexivity|].
  destruct (e =? b); [injection E as <- <-; left; reflexivity|].
  destruct (rd mem e) as [x| |]; [|discriminate|discriminate]. cbn [bind] in E.
  destruct (codepoint_size x) as [sz| |]; [|discriminate|discriminate]. cbn [bind] in E.
  destruct (is_codepoint_start x && (sz >? w)).
  - destruct (wr mem e 63) as [m| |] eqn:W; [|discriminate|discriminate]. cbn [bind] in E.
    destruct (padd m e (-1)) as [q| |]; [|discriminate|discriminate]. cbn [bind] in E.
    destruct (wr_inv _ _ _ _ W) as (_ & _ & O). destruct (IH _ _ _ _ _ _ _ E k Hk) as [A|A]; [|right; exact A].
    rewrite O in A by lia. destruct (k =? e); [right; exact A|left; exact A].
  - cbn [bind] in E. destruct (padd mem e (-1)) as [q| |]; [|discriminate|discriminate]. cbn [bind] in E. exact (IH _ _ _ _ _ _ _ E k Hk).
Qed.

(** enforce changes an octet outside the range exactly in two cases: the octet at the end is the first of a
    sequence and the range has an octet that is not a continuation; or the range and the octet at
    its end are all continuations (then it goes on behind the range). *)
Theorem C17_enforce_is_local_iff_partial : forall mem b e mem' r, Forall is_byte mem -> 0 <= b <= e -> e < zlen mem ->
  bounds_enforce mem b e = Ok (mem', r) ->
  ((forall k, 0 <= k < zlen mem -> ~ (b <= k < e) -> octet mem' k = octet mem k) <->
   ~ (192 <= octet mem e /\ exists i, b <= i < e /\ ~ continuation_octet (octet mem i)) /\
   ~ (forall i, b <= i <= e -> continuation_octet (octet mem i))).
Proof.
  intros mem b e mem' r F Hb He E.
  destruct (is_cont (octet mem e)) eqn:C.
  - apply is_cont_iff in C. destruct (enforce_front (S (length mem)) mem b true) as [[[m b'] rt]| |] eqn:EF;
      [|unfold bounds_enforce in E; rewrite EF in E; discriminate|unfold bounds_enforce in E; rewrite EF in E; discriminate].
    assert (EB : enforce_back 6 m b' e 0 rt = Ok (mem', r)) by (unfold bounds_enforce in E; rewrite EF in E; exact E).
    assert (D : (forall i, b <= i <= e -> continuation_octet (octet mem i)) \/ exists i, b <= i < e /\ ~ continuation_octet (octet mem i)).
    { assert (DD : forall n : nat, (forall i, b <= i < b + Z.of_nat n -> continuation_octet (octet mem i)) \/
        exists i, b <= i < b + Z.of_nat n /\ ~ continuation_octet (octet mem i)).
      { induction n as [|n IH]; [left; lia|]. destruct IH as [IH|(i & Hi & Ni)]; [|right; exists i; split; [lia|exact Ni]].
        destruct (is_cont (octet mem (b + Z.of_nat n))) eqn:Q.
        - left. intros i Hi. destruct (Z.eq_dec i (b + Z.of_nat n)) as [->|]; [apply is_cont_iff; exact Q|apply IH; lia].
        - right. exists (b + Z.of_nat n). split; [lia|]. intros X. apply is_cont_iff in X. congruence. }
      destruct (DD (Z.to_nat (e - b))) as [A|(i & Hi & Ni)]; [left|right; exists i; split; [lia|exact Ni]].
      intros i Hi. destruct (Z.eq_dec i e) as [->|]; [exact C|apply A; lia]. }
    destruct D as [All|(i & Hi & Ni)].
    + split; [|intros (_ & Q); contradiction]. intros Keep. exfalso. specialize (Keep e ltac:(lia) ltac:(lia)).
      destruct (front_63 _ _ _ _ _ _ _ F EF e ltac:(lia)) as (_ & A). specialize (A ltac:(lia) All).
      destruct (back_63 _ _ _ _ _ _ _ _ EB e ltac:(lia)) as [B|B]; unfold continuation_octet in C; lia.
    + split; [intros _; split; [unfold continuation_octet in C; lia|intros Q; apply Ni, Q; lia]|].
      intros _. 
      assert (G : exists j, b <= j < e /\ ~ continuation_octet (octet mem j)) by (exists i; split; assumption). clear i Hi Ni.
      (* the front loop stops before the end *)
      assert (ST : b <= b' < e /\ (forall k, 0 <= k -> e <= k \/ k < b -> octet m k = octet mem k) /\ Forall is_byte m /\ length m = length mem).
      { clear E EB. revert EF G F He. generalize true as ret. generalize (S (length mem)) as fl. intros fl. revert mem b Hb C. induction fl as [|f IH]; intros mem b Hb C ret EF G F He; [discriminate|].
        cbn [enforce_front] in EF. rewrite rd_octet in EF by lia. cbn [bind] in EF.
        rewrite is_continuation_spec in EF by (apply octet_byte; assumption). destruct (is_cont (octet mem b)) eqn:CB.
        - destruct (wr mem b 63) as [m1| |] eqn:W; [|discriminate|discriminate]. cbn [bind] in EF.
          destruct (wr_inv _ _ _ _ W) as (_ & L & O). assert (Z1 : zlen m1 = zlen mem) by (unfold zlen; lia).
          rewrite padd_ok in EF by lia. cbn [bind] in EF. destruct G as (j & Hj & Nj).
          assert (j <> b) by (intros ->; apply Nj, is_cont_iff; exact CB).
          destruct (IH m1 (b + 1) ltac:(lia)) with (ret := false) as (A1 & A2 & A3 & A4); try assumption.
          + rewrite O by lia. destruct (Z.eqb_spec e b); [lia|exact C].
          + exists j. split; [lia|]. rewrite O by lia. destruct (Z.eqb_spec j b); [lia|exact Nj].
          + exact (byte_wr _ _ _ F W).
          + lia.
          + split; [lia|]. split; [|split; [exact A3|lia]]. intros k Hk D. rewrite A2 by lia. rewrite O by lia. destruct (Z.eqb_spec k b); [lia|reflexivity].
        - injection EF as <- <- <-. destruct G as (j & Hj & _). split; [lia|]. split; [reflexivity|]. split; [exact F|reflexivity]. }
      destruct ST as (S1 & S2 & S3 & S4).
      destruct (enforce_back_spec b' e ltac:(lia) 6 m 0 rt S3 ltac:(unfold zlen in *; lia) ltac:(lia) ltac:(lia)) as (mm & rr & EB' & L' & F' & _ & O').
      rewrite Z.sub_0_r in EB'. rewrite EB in EB'. injection EB' as <- <-.
      intros k Hk N. rewrite O' by lia. assert (OK : octet m k = octet mem k) by (apply S2; lia).
      destruct (Z.ltb_spec b' k), (Z.leb_spec k (e - 0)); cbn [andb]; try (rewrite OK; reflexivity); try lia.
      assert (k = e) by lia. subst k. unfold bad. rewrite OK. replace (192 <=? octet mem e) with false by (unfold continuation_octet in C; lia).
      cbn [andb]. rewrite andb_false_r. reflexivity.
  - assert (NC : ~ continuation_octet (octet mem e)) by (intros X; apply is_cont_iff in X; congruence).
    destruct (enforce_full mem b e F Hb He NC) as (f & m & rr & E' & Hf & L & FB & A1 & A2 & R & O). rewrite E in E'. injection E' as <- <-.
    split.
    + intros Keep. split; [|intros Q; apply NC, Q; lia]. intros (Q & i & Hi & Ni). specialize (Keep e ltac:(lia) ltac:(lia)).
      rewrite O in Keep by lia. assert (f < e).
      { destruct (Z.le_gt_cases e f) as [G|G]; [|lia]. exfalso. apply Ni, A1. lia. }
      assert (1 <= announced_len (octet mem e)) by (unfold announced_len; repeat (match goal with |- context [if ?x then _ else _] => destruct x end); lia).
      assert (BD : bad mem e e = true) by (unfold bad; lia). rewrite BD in Keep.
      replace ((b <=? e) && (e <? f)) with false in Keep by lia. replace ((f <? e) && (e <=? e) && (e - e <=? 5) && true) with true in Keep by lia. lia.
    + intros (Q & _) k Hk N. rewrite O by lia.
      destruct (Z.leb_spec b k), (Z.ltb_spec k f), (Z.ltb_spec f k), (Z.leb_spec k e); cbn [andb]; try lia; try reflexivity.
      assert (k = e) by lia. subst k. destruct (bad mem e e) eqn:BD; [|rewrite andb_false_r; reflexivity]. exfalso. apply Q.
      unfold bad in BD. split; [lia|]. exists f. split; [lia|exact A2].
Qed.
Print Assumptions C17_enforce_is_local_iff_partial.
(** enforce returns, and touches nothing outside its buffer, whenever one of the octets from begin to the end (included) is not a continuation. *)
Theorem C17_enforce_returns_partial : forall mem b e j, Forall is_byte mem -> 0 <= b <= j -> j <= e -> e < zlen mem ->
  ~ continuation_octet (octet mem j) -> exists mem' r, bounds_enforce mem b e = Ok (mem', r) /\ length mem' = length mem.
Proof.
  intros mem b e j F Hb Hj He N.
  destruct (enforce_front_spec j (Z.to_nat (j - b)) mem b (S (length mem)) true F ltac:(lia) ltac:(lia) ltac:(lia) N ltac:(unfold zlen in *; lia))
    as (b' & m & EF & Hb' & L & FB & _).
  destruct (enforce_back_spec b' e ltac:(lia) 6 m 0 (true && (b' =? b)) FB ltac:(unfold zlen in *; lia) ltac:(lia) ltac:(lia)) as (mm & rr & EB & L' & _).
  rewrite Z.sub_0_r in EB. exists mm, rr. split; [unfold bounds_enforce; rewrite EF; exact EB|lia].
Qed.
Print Assumptions C17_enforce_returns_partial.
(** A view of the first octet of [61 C3 A9]; of the two continuations in [81 82 83 61]. *)
Example C17_range_example :
  bounds_check [0x61; 0xC3; 0xA9; 0] 0 1 = Ok false /\ bounds_check (string_buffer (string_of [0x61; 0xC3; 0xA9; 0] 0 1)) 0 1 = Ok true /\
  bounds_enforce [0x61; 0xC3; 0xA9; 0] 0 1 = Ok ([0x61; 63; 0xA9; 0], false) /\
  bounds_enforce [0x61; 0x62; 0x63; 0x64; 0x65; 0x81; 0x82; 0x83; 0x61; 0] 5 7 = Ok ([0x61; 0x62; 0x63; 0x64; 0x65; 63; 63; 63; 0x61; 0], false) /\
  bounds_enforce [0x81; 0x82; 0x83; 0x61; 0] 0 2 = UB BadPointer.
Proof. repeat split; vm_compute; reflexivity. Qed.
