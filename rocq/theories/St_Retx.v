(** Retransmission suppression: the arithmetic *)
From stdpp Require Import gmap.
From Verif Require Import Lib Name_Model Packet_Model Nt_Model Tree_Model Tab_Model Fw_Model St_Model.
Open Scope Z_scope.

Lemma pow2_pos d : 0 <= d -> 0 < 2 ^ d.
Proof. intros. by apply Z.pow_pos_nonneg. Qed.
Lemma pow2_split a b : 0 <= a <= b -> 2 ^ b = 2 ^ a * 2 ^ (b - a).
Proof. intros. rewrite <- Z.pow_add_r by lia. f_equal. lia. Qed.

Lemma round24_small m e : m < 2 ^ 24 -> round24 m e = (m, e).
Proof.
  intros H. unfold round24. destruct (Z.leb_spec (Z.log2 m - 23) 0) as [|Hd]; [done|]. exfalso.
  destruct (Z.le_gt_cases m 0) as [Hm|Hm]; [rewrite Z.log2_nonpos in Hd by lia; lia|].
  assert (Z.log2 m < 24) by (apply Z.log2_lt_pow2; lia). lia.
Qed.
(** the rounded number lies between the neighbours *)
Lemma round24_big m e : 2 ^ 24 <= m -> exists d q, 0 < d /\ d = Z.log2 m - 23 /\ round24 m e = (q, e + d) /\
  (q = m / 2 ^ d \/ q = m / 2 ^ d + 1 /\ 0 < m mod 2 ^ d).
Proof.
  intros H. assert (24 <= Z.log2 m) by (change 24 with (Z.log2 (2 ^ 24)); by apply Z.log2_le_mono).
  unfold round24. destruct (Z.leb_spec (Z.log2 m - 23) 0); [lia|]. eexists _, _. split; [|split; [done|split; [done|]]]; [lia|].
  set (d := Z.log2 m - 23) in *. assert (0 < 2 ^ d) by (apply pow2_pos; lia). pose proof (Z.mod_pos_bound m (2 ^ d)).
  destruct (_ || _) eqn:E; [right|by left]. split; [done|]. rewrite orb_true_iff, andb_true_iff, Z.ltb_lt, Z.eqb_eq in E. lia.
Qed.

(** iv * m * 2^e is at least 2^24: so is its rounding *)
Definition at_least (m e b : Z) : Prop := if 0 <=? e then b <= m * 2 ^ e else b * 2 ^ (- e) <= m.
Definition below (m e b : Z) : Prop := if 0 <=? e then m * 2 ^ e < b else m < b * 2 ^ (- e).
Lemma at_least_below m e b : at_least m e b \/ below m e b.
Proof. unfold at_least, below. destruct (0 <=? e); lia. Qed.

(** exact truncation lies between floor and ceiling when the product is below 2^24 *)
Lemma scale_small iv m e : 0 < iv < 2 ^ 24 -> 0 < m -> below (iv * m) e (2 ^ 24) ->
  exists v, scale iv (Fin m e) = Some v /\ if 0 <=? e then v = iv * m * 2 ^ e else (v - 1) * 2 ^ (- e) < iv * m < (v + 1) * 2 ^ (- e).
Proof.
  intros Hi Hm Hb. unfold scale. rewrite round24_small by lia. change (0 + e) with e. unfold below in Hb.
  destruct (Z.le_gt_cases (2 ^ 24) (iv * m)) as [Hbig|Hs].
  - destruct (round24_big (iv * m) e Hbig) as (d & q & Hd & Ed & -> & Hq). destruct (Z.leb_spec 0 e) as [He|He].
    + exfalso. assert (1 <= 2 ^ e) by (pose proof (pow2_pos e He); lia). nia.
    + assert (Hde : d + e <= 0).
      { assert (Z.log2 (iv * m) < 24 + - e) by (apply Z.log2_lt_pow2; [lia|]; rewrite Z.pow_add_r by lia; lia). lia. }
      unfold to_int64. set (k := - e - d). assert (Hk : 0 <= k) by lia.
      assert (E2 : 2 ^ (- e) = 2 ^ d * 2 ^ k) by (rewrite <- Z.pow_add_r by lia; f_equal; lia).
      assert (P1 : 0 < 2 ^ d) by (apply pow2_pos; lia). assert (P2 : 0 < 2 ^ k) by (by apply pow2_pos).
      assert (Ev : (if 0 <=? e + d then q * 2 ^ (e + d) else q / 2 ^ (- (e + d))) = q / 2 ^ k).
      { destruct (Z.leb_spec 0 (e + d)) as [Hz|Hz]; [|by replace (- (e + d)) with k by lia]. assert (k = 0) as -> by lia. replace (e + d) with 0 by lia. rewrite Z.div_1_r. lia. }
      rewrite Ev. pose proof (Z.div_mod (iv * m) (2 ^ d) ltac:(lia)) as D1. pose proof (Z.mod_pos_bound (iv * m) (2 ^ d) ltac:(lia)) as B1.
      pose proof (Z.div_mod q (2 ^ k) ltac:(lia)) as D2. pose proof (Z.mod_pos_bound q (2 ^ k) ltac:(lia)) as B2.
      assert (Hv : (q / 2 ^ k - 1) * 2 ^ (- e) < iv * m < (q / 2 ^ k + 1) * 2 ^ (- e)).
      { rewrite E2. set (v := q / 2 ^ k) in *. set (x := iv * m) in *. set (y := x / 2 ^ d) in *. destruct Hq as [->|[-> Hr]]; nia. }
      destruct (Z.leb_spec (q / 2 ^ k) INT64_MAX) as [_|Hx]; [by exists (q / 2 ^ k)|]. exfalso. unfold INT64_MAX in Hx. assert (0 < 2 ^ (- e)) by (apply pow2_pos; lia).
      assert (q / 2 ^ k - 1 < 2 ^ 24) by nia. lia.
  - rewrite round24_small by lia. unfold to_int64. destruct (Z.leb_spec 0 e) as [He|He].
    + destruct (Z.leb_spec (iv * m * 2 ^ e) INT64_MAX) as [_|Hx]; [by eexists|]. unfold INT64_MAX in Hx. lia.
    + assert (P : 0 < 2 ^ (- e)) by (apply pow2_pos; lia). pose proof (Z.div_mod (iv * m) (2 ^ (- e)) ltac:(lia)) as D1. pose proof (Z.mod_pos_bound (iv * m) (2 ^ (- e)) ltac:(lia)) as B1.
      destruct (Z.leb_spec (iv * m / 2 ^ (- e)) INT64_MAX) as [_|Hx]; [eexists; split; [done|]; nia|]. unfold INT64_MAX in Hx. assert (iv * m / 2 ^ (- e) < 2 ^ 24) by nia. lia.
Qed.
(** and it is at least 2^24 otherwise *)
Lemma scale_large iv m e v : 0 < iv < 2 ^ 24 -> 0 < m -> at_least (iv * m) e (2 ^ 24) -> scale iv (Fin m e) = Some v -> 2 ^ 24 <= v.
Proof.
  intros Hi Hm Hb. unfold scale. rewrite round24_small by lia. change (0 + e) with e. unfold at_least in Hb.
  destruct (Z.le_gt_cases (2 ^ 24) (iv * m)) as [Hbig|Hs].
  - destruct (round24_big (iv * m) e Hbig) as (d & q & Hd & Ed & -> & Hq). unfold to_int64. assert (P1 : 0 < 2 ^ d) by (apply pow2_pos; lia).
    pose proof (Z.div_mod (iv * m) (2 ^ d) ltac:(lia)) as D1. pose proof (Z.mod_pos_bound (iv * m) (2 ^ d) ltac:(lia)) as B1.
    assert (Hlow : 2 ^ 23 <= iv * m / 2 ^ d).
    { apply Z.div_le_lower_bound; [lia|]. rewrite <- Z.pow_add_r by lia. replace (d + 23) with (Z.log2 (iv * m)) by lia. apply Z.log2_spec. lia. }
    assert (Hq' : iv * m / 2 ^ d <= q) by (destruct Hq as [->|[-> _]]; lia).
    destruct (Z.leb_spec 0 e) as [He|He].
    + destruct (Z.leb_spec 0 (e + d)) as [_|]; [|lia]. case_match; [|done]. intros [= <-]. assert (2 ^ (e + d) >= 2) by (change 2 with (2 ^ 1) at 2; apply Z.le_ge, Z.pow_le_mono_r; lia). nia.
    + destruct (Z.leb_spec 0 (e + d)) as [Hz|Hz]; (case_match; [|done]); intros [= <-].
      * destruct (Z.eq_dec (e + d) 0) as [E0|E0].
        -- rewrite E0. change (2 ^ 0) with 1. assert (- e = d) by lia. replace (- e) with d in Hb by lia. assert (2 ^ 24 <= iv * m / 2 ^ d) by (apply Z.div_le_lower_bound; lia). lia.
        -- assert (2 <= 2 ^ (e + d)) by (change 2 with (2 ^ 1) at 1; apply Z.pow_le_mono_r; lia). nia.
      * assert (P2 : 0 < 2 ^ (- (e + d))) by (apply pow2_pos; lia). apply Z.div_le_lower_bound; [lia|].
        assert (E2 : 2 ^ (- e) = 2 ^ d * 2 ^ (- (e + d))) by (rewrite <- Z.pow_add_r by lia; f_equal; lia). rewrite E2 in Hb.
        assert (2 ^ 24 * 2 ^ (- (e + d)) <= iv * m / 2 ^ d) by (apply Z.div_le_lower_bound; lia). lia.
  - rewrite round24_small by lia. unfold to_int64. destruct (Z.leb_spec 0 e) as [He|He]; (case_match; [|done]); intros [= <-]; [lia|]. apply Z.div_le_lower_bound; [apply pow2_pos; lia|]. lia.
Qed.
(** it is defined up to 2^62 *)
Lemma scale_defined iv m e : 0 < iv < 2 ^ 24 -> 0 < m -> below (iv * m) e (2 ^ 62) -> exists v, scale iv (Fin m e) = Some v.
Proof.
  intros Hi Hm Hb. unfold scale. rewrite round24_small by lia. change (0 + e) with e. unfold below in Hb.
  destruct (Z.le_gt_cases (2 ^ 24) (iv * m)) as [Hbig|Hs].
  - destruct (round24_big (iv * m) e Hbig) as (d & q & Hd & Ed & -> & Hq). unfold to_int64. assert (P1 : 0 < 2 ^ d) by (apply pow2_pos; lia).
    pose proof (Z.div_mod (iv * m) (2 ^ d) ltac:(lia)) as D1. pose proof (Z.mod_pos_bound (iv * m) (2 ^ d) ltac:(lia)) as B1.
    assert (Hlow : 2 ^ 23 <= iv * m / 2 ^ d).
    { apply Z.div_le_lower_bound; [lia|]. rewrite <- Z.pow_add_r by lia. replace (d + 23) with (Z.log2 (iv * m)) by lia. apply Z.log2_spec. lia. }
    assert (Hq' : q * 2 ^ d <= 2 * (iv * m)) by (destruct Hq as [->|[-> _]]; nia).
    assert (Hmax : INT64_MAX = 2 * 2 ^ 62 - 1) by done.
    destruct (Z.leb_spec 0 e) as [He|He].
    + destruct (Z.leb_spec 0 (e + d)) as [_|]; [|lia]. assert (E2 : 2 ^ (e + d) = 2 ^ e * 2 ^ d) by (rewrite <- Z.pow_add_r by lia; done). rewrite E2.
      assert (0 < 2 ^ e) by (by apply pow2_pos). destruct (Z.leb_spec (q * (2 ^ e * 2 ^ d)) INT64_MAX) as [_|Hx]; [by eexists|]. nia.
    + assert (P3 : 0 < 2 ^ (- e)) by (apply pow2_pos; lia). destruct (Z.leb_spec 0 (e + d)) as [Hz|Hz].
      * assert (E2 : 2 ^ d = 2 ^ (- e) * 2 ^ (e + d)) by (rewrite <- Z.pow_add_r by lia; f_equal; lia). assert (0 < 2 ^ (e + d)) by (by apply pow2_pos).
        destruct (Z.leb_spec (q * 2 ^ (e + d)) INT64_MAX) as [_|Hx]; [by eexists|]. exfalso. rewrite E2 in Hq'. nia.
      * assert (E2 : 2 ^ (- e) = 2 ^ d * 2 ^ (- (e + d))) by (rewrite <- Z.pow_add_r by lia; f_equal; lia). assert (P2 : 0 < 2 ^ (- (e + d))) by (apply pow2_pos; lia).
        destruct (Z.leb_spec (q / 2 ^ (- (e + d))) INT64_MAX) as [_|Hx]; [by eexists|]. exfalso. pose proof (Z.div_mod q (2 ^ (- (e + d))) ltac:(lia)). pose proof (Z.mod_pos_bound q (2 ^ (- (e + d))) ltac:(lia)). rewrite E2 in Hb. nia.
  - rewrite round24_small by lia. unfold to_int64. destruct (Z.leb_spec 0 e) as [He|He]; match goal with |- context [?a <=? INT64_MAX] => destruct (Z.leb_spec a INT64_MAX) as [_|Hx] end; try (by eexists); exfalso; unfold INT64_MAX in Hx; [lia|].
    assert (iv * m / 2 ^ (- e) <= iv * m) by (apply Z.div_le_upper_bound; [apply pow2_pos; lia|]; assert (1 <= 2 ^ (- e)) by (pose proof (pow2_pos (- e)); lia); nia). lia.
Qed.
Lemma below_one_spec m e : below_one (Fin m e) = false -> 0 < m /\ at_least m e 1.
Proof.
  unfold below_one, at_least. destruct (Z.leb_spec 0 e) as [He|He].
  - intros H%Z.leb_gt. pose proof (pow2_pos e He). nia.
  - intros H%Z.ltb_ge. pose proof (pow2_pos (- e) ltac:(lia)). lia.
Qed.
