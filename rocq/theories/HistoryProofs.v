(** * Proofs: histories of iterator operations *)
From Verif Require Import Prelude DataTables PropsModel Utf8Model TextModel HistoryModel Utf8Spec UnicodeSpec GraphemeSpec TextSpec HistorySpec
  LawfulProofs SequenceProofs GraphemeProofs Uax29Proofs GraphemeText.
Require Import ZifyBool ZifyNat.

(** ** Positions between the starts of codepoints *)
Lemma view_inside ops b e cs c pos : view_in_memory ops b e cs c pos ->
  exists pos' inside, text_in ops b e cs c pos' inside /\ (forall i, (i <= length cs)%nat -> pos' i = pos i) /\
    forall k p, (k < length cs)%nat -> pos k <= p < pos (S k) -> inside k p.
Proof.
  intros [before cs' c' after F Hc | before os o after F Ho | before cs' c' after].
  - eexists _, _. split; [apply utf8_view_text; assumption|].
    assert (P : forall i, (i <= length cs')%nat -> upos (zlen before) (cs' ++ [c']) i = zlen before + zlen (utf8_text (firstn i cs'))).
    { intros i Hi. unfold upos. rewrite firstn_app. replace (i - length cs')%nat with 0%nat by lia. cbn [firstn]. rewrite app_nil_r. reflexivity. }
    split; [exact P|]. intros k p K H. unfold uinside. rewrite !P by lia. exact H.
  - eexists _, _. split; [constructor; [apply seq_view_lawful; assumption|rewrite spos_0; reflexivity|rewrite map_length, spos_end; reflexivity]|].
    rewrite map_length.
    assert (P : forall i, (i <= length os)%nat -> spos (zlen before) (os ++ [o]) i = zlen before + zlen (concat (firstn i os))).
    { intros i Hi. unfold spos. rewrite firstn_app. replace (i - length os)%nat with 0%nat by lia. cbn [firstn]. rewrite app_nil_r. reflexivity. }
    split; [exact P|]. intros k p K H. unfold sinside. rewrite !P by lia. exact H.
  - eexists _, _. split; [apply utf32_view_text|]. split; [reflexivity|]. cbv beta. intros k p K H. lia.
Qed.
Lemma string_inside ops b e cs pos : string_in_memory ops b e cs pos ->
  exists pos' inside, text_in ops b e cs 0 pos' inside /\ (forall i, (i <= length cs)%nat -> pos' i = pos i) /\
    forall k p, (k < length cs)%nat -> pos k <= p < pos (S k) -> inside k p.
Proof.
  intros [cs' F | os F | cs'].
  - eexists _, _. split; [apply utf8_string_text; assumption|].
    assert (P : forall i, (i <= length cs')%nat -> upos 0 (cs' ++ [0]) i = zlen (utf8_text (firstn i cs'))).
    { intros i Hi. unfold upos. rewrite firstn_app. replace (i - length cs')%nat with 0%nat by lia. cbn [firstn]. rewrite app_nil_r. reflexivity. }
    split; [exact P|]. intros k p K H. unfold uinside. rewrite !P by lia. exact H.
  - eexists _, _. split; [constructor; [apply seq_string_lawful; assumption|rewrite spos_0; reflexivity|rewrite map_length, spos_end; reflexivity]|].
    rewrite map_length.
    assert (P : forall i, (i <= length os)%nat -> spos 0 (os ++ [[0]]) i = zlen (concat (firstn i os))).
    { intros i Hi. unfold spos. rewrite firstn_app. replace (i - length os)%nat with 0%nat by lia. cbn [firstn]. rewrite app_nil_r. reflexivity. }
    split; [exact P|]. intros k p K H. unfold sinside. rewrite !P by lia. exact H.
  - eexists _, _. split; [apply utf32_string_text|]. split; [reflexivity|]. cbv beta. intros k p K H. lia.
Qed.

Section Run.
Context (ops : cp_ops) (b e : Z) (cs : list Z) (c : Z) (pos : nat -> Z) (inside : nat -> Z -> Prop).
Context (T : text_in ops b e cs c pos inside).
Context (spec_pos : nat -> Z) (SP : forall k p, (k < length cs)%nat -> spec_pos k <= p < spec_pos (S k) -> inside k p).
Context (B : cs = [] \/ pairwise_boundary cs c).
Context (postdec : Z -> res (Z * Z)) (PD : forall p, postdec p = let* q := op_dec ops p in Ok (p, q)).
Context (fuel : nat) (Hf : (2 * length cs < fuel)%nat).
Let L := ti_lawful _ _ _ _ _ _ _ T.
Notation n := (length cs).
Notation all := (cs ++ [c]).
Notation gs := (seg cs).
Notation ss k := (length (concat (firstn k (seg cs)))).
Let LA : length all = S n.
Proof. rewrite app_length. cbn [length]. lia. Qed.

Definition sim (a : (nat -> nat) * (nat -> nat)) (st : registers) : Prop :=
  (forall r, (fst a r <= n)%nat /\ inside (fst a r) (fst st r)) /\
  (forall g, (snd a g <= length gs)%nat /\ on all pos n e (snd st g) (ss (snd a g))).
Lemma sim_cursor C G C' G' r k p : sim (C, G) (C', G') -> (k <= n)%nat -> inside k p -> sim (set C r k, G) (set C' r p, G').
Proof.
  intros (HC & HG) K P. split; [|exact HG]. intros q. cbn [fst]. unfold set. destruct (Nat.eqb q r); [auto|apply HC].
Qed.
Lemma sim_iter C G C' G' r k i : sim (C, G) (C', G') -> (k <= length gs)%nat -> on all pos n e i (ss k) -> sim (C, set G r k) (C', set G' r i).
Proof.
  intros (HC & HG) K P. split; [exact HC|]. intros q. cbn [snd]. unfold set. destruct (Nat.eqb q r); [auto|apply HG].
Qed.
Lemma ss_le k : (ss k <= n)%nat.
Proof.
  assert (E : length (concat (firstn k (seg cs) ++ skipn k (seg cs))) = n) by (rewrite firstn_skipn, seg_concat; reflexivity).
  rewrite concat_app, app_length in E. lia.
Qed.
Lemma extent g k : (k <= length gs)%nat -> on all pos n e g (ss k) -> inside (ss k) (g_where g) /\ inside (ss (S k)) (g_eog g).
Proof.
  intros K O. pose proof (on_extent ops all pos inside L n (text_n cs c) e (text_e ops b e cs c pos inside T) cs k g (eq_sym (text_sub cs c)) K O) as A.
  destruct A. auto.
Qed.
Lemma execute_ok x a o a' st : step cs gs spec_pos x a o a' -> sim a st ->
  exists st', execute fuel ops postdec b e x st = Ok (o, st') /\ sim a' st'.
Proof.
  intros S. destruct st as (C', G'). pose proof (text_e ops b e cs c pos inside T) as IE.
  assert (IB : inside 0 b) by (rewrite (ti_begin _ _ _ _ _ _ _ T); apply (lw_pos _ _ _ _ L); lia).
  destruct S; intros SM; pose proof SM as (HC & HG); cbn [fst snd] in HC, HG; cbn [execute].
  - eexists. split; [reflexivity|]. apply sim_cursor; [assumption|lia|assumption].
  - eexists. split; [reflexivity|]. apply sim_cursor; [assumption|lia|assumption].
  - eexists. split; [reflexivity|]. apply sim_cursor; [assumption|lia|apply SP; assumption].
  - eexists. split; [reflexivity|]. apply sim_cursor; [assumption|apply HC|apply HC].
  - rewrite (lw_inc _ _ _ _ L (C r)) by (try lia; apply HC). eexists. split; [reflexivity|]. apply sim_cursor; [assumption|lia|apply (lw_pos _ _ _ _ L); lia].
  - rewrite (lw_postinc _ _ _ _ L (C r)) by (try lia; apply HC). eexists. split; [reflexivity|].
    apply sim_cursor; [|lia|apply HC]. apply sim_cursor; [assumption|lia|apply (lw_pos _ _ _ _ L); lia].
  - destruct (HC r) as (R1 & R2). rewrite H in R1, R2. rewrite (lw_dec _ _ _ _ L k) by (try lia; assumption). eexists. split; [reflexivity|].
    apply sim_cursor; [assumption|lia|apply (lw_pos _ _ _ _ L); lia].
  - destruct (HC r) as (R1 & R2). rewrite H in R1, R2. rewrite PD, (lw_dec _ _ _ _ L k) by (try lia; assumption). eexists. split; [reflexivity|].
    apply sim_cursor; [|lia|assumption]. apply sim_cursor; [assumption|lia|apply (lw_pos _ _ _ _ L); lia].
  - assert (N : (C r < n)%nat) by (apply nth_error_Some; congruence).
    rewrite (lw_deref _ _ _ _ L (C r) (C' r) c0); [|rewrite nth_error_app1 by assumption; assumption|apply HC]. cbn [bind].
    eexists. split; [reflexivity|]. split; [|exact HG]. intros q. cbn [fst]. unfold set. destruct (Nat.eqb_spec q r) as [->|]; [|apply HC].
    split; [lia|]. apply (lw_pos _ _ _ _ L). lia.
  - rewrite (lw_eq _ _ _ _ L (C r) (C q)) by (try (destruct (HC r), (HC q); lia); apply HC). eexists. split; [reflexivity|assumption].
  - destruct (text_begin ops b e cs c pos inside T fuel ltac:(lia)) as (i & -> & O). eexists. split; [reflexivity|]. apply sim_iter; [assumption|lia|exact O].
  - destruct (final_end_on ops b e cs c pos pos inside T ltac:(reflexivity) fuel B ltac:(lia)) as (i & -> & O). eexists. split; [reflexivity|]. apply sim_iter; [assumption|lia|exact O].
  - eexists. split; [reflexivity|]. apply sim_iter; [assumption|apply HG|apply HG].
  - destruct (HG g) as (K & O). pose proof (is_end_next all n (text_n cs c) e cs (G g) (eq_sym (text_sub cs c)) H) as J.
    destruct (gi_inc_ok ops all pos inside L n (text_n cs c) e IE (G' g) _ _ fuel O J ltac:(lia)) as (i & -> & O'). eexists. split; [reflexivity|].
    apply sim_iter; [assumption|lia|exact O'].
  - destruct (HG g) as (K & O). pose proof (is_end_next all n (text_n cs c) e cs (G g) (eq_sym (text_sub cs c)) H) as J. unfold gi_postinc.
    destruct (gi_inc_ok ops all pos inside L n (text_n cs c) e IE (G' g) _ _ fuel O J ltac:(lia)) as (i & -> & O'). eexists. split; [reflexivity|].
    apply sim_iter; [|assumption|assumption]. apply sim_iter; [assumption|lia|exact O'].
  - rewrite (text_eq ops b e cs c pos inside T fuel (G g) (G h) (G' g) (G' h) Hf) by apply HG. eexists. split; [reflexivity|assumption].
  - destruct (text_eq_cp ops b e cs c pos inside T fuel (G g) (G' g) (C r) (C' r) ltac:(lia) ltac:(apply HG) ltac:(apply HC) ltac:(apply HC) ltac:(apply HG)) as (v & -> & V).
    cbn [bind]. assert (v = b0) as ->; [|eexists; split; [reflexivity|assumption]].
    rewrite <- H in V. destruct v, b0; intuition congruence.
  - destruct (HG g) as (K & O). eexists. split; [reflexivity|]. apply sim_cursor; [assumption|apply ss_le|apply (extent _ _ K O)].
  - destruct (HG g) as (K & O). eexists. split; [reflexivity|]. apply sim_cursor; [assumption|apply ss_le|apply (extent _ _ K O)].
  - destruct (HG g) as (K & O). destruct (extent _ _ K O) as (I1 & I2). cbn [gi_deref fst snd].
    assert (N : (G g < length gs)%nat) by (apply nth_error_Some; congruence).
    assert (F : firstn (S (G g)) gs = firstn (G g) gs ++ [l]).
    { clear - H. revert H. generalize (G g) as k. induction (seg cs) as [|x t IH]; intros [|k] E; cbn in E; try discriminate; [injection E as ->; reflexivity|].
      cbn [firstn app]. f_equal. apply IH. assumption. }
    assert (SS : (ss (S (G g)) = ss (G g) + length l)%nat) by (rewrite F, concat_app, app_length; cbn [concat]; rewrite app_nil_r; reflexivity).
    pose proof (ss_le (S (G g))) as LE.
    rewrite (iterate_for_lawful _ _ _ _ L (length l) (ss (G g)) (ss (S (G g))) _ _ fuel ltac:(lia) ltac:(lia) I1 I2 ltac:(lia)). cbn [bind].
    exists (C', G'). split; [|assumption].
    assert (E : all = concat (firstn (G g) gs) ++ l ++ (concat (skipn (S (G g)) gs) ++ [c])).
    { rewrite <- (seg_concat cs) at 1. rewrite <- (firstn_skipn (S (G g)) gs) at 1. rewrite concat_app, F, concat_app. cbn [concat]. rewrite app_nil_r, <- !app_assoc. reflexivity. }
    assert (X : sub all (ss (G g)) (ss (S (G g))) = l); [|rewrite X; reflexivity].
    rewrite SS, E. apply sub_all.
Qed.
Lemma run_ok a xs os a' st : history cs gs spec_pos a xs os a' -> sim a st ->
  exists st', run fuel ops postdec b e xs st = Ok (os, st') /\ sim a' st'.
Proof.
  intros H. revert st. induction H as [a|a a' a'' x xs o os S H IH]; intros st SM; [exists st; split; [reflexivity|assumption]|].
  cbn [run]. destruct (execute_ok x a o a' st S SM) as (st' & -> & SM'). cbn [bind]. destruct (IH st' SM') as (st'' & -> & SM''). cbn [bind]. eauto.
Qed.
Lemma program_ok xs os a' : history cs gs spec_pos (fun _ => 0%nat, fun _ => 0%nat) xs os a' -> program fuel ops postdec b e xs = Ok os.
Proof.
  intros H. unfold program. destruct (text_begin ops b e cs c pos inside T fuel ltac:(lia)) as (i & -> & O). cbn [bind].
  destruct (run_ok _ xs os a' (fun _ => b, fun _ => i) H) as (st' & -> & _); [|reflexivity].
  split; cbn [fst snd]; intros _; (split; [lia|]); [|exact O]. rewrite (ti_begin _ _ _ _ _ _ _ T). apply (lw_pos _ _ _ _ L). lia.
Qed.
End Run.
