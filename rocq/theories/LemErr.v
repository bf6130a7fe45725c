(** * Glue for the properties of byte swapping and revert payloads (C18-C20). *)

From Verif Require Import Tac Logic RtAlloc RtErr RtDiv RtSwap RtAscii SpecAbi LemAbi RtAbort Spec SpecInt.

Lemma bswap_bytes : forall n v, 0 <= v < 256 ^ Z.of_nat n -> be_bytes n (bswap n v) = rev (be_bytes n v).
Proof.
  intros n v Hv.
  pose (m := store (Z.of_nat n) (fun _ => 0) 0 v).
  assert (E : load n m 0 = v).
  { unfold m. rewrite load_store_same. apply Z.mod_small. exact Hv. }
  rewrite <- E at 1. rewrite bswap_load, be_bytes_load_be.
  pose (m' := fun x => rd m (Z.of_nat n - 1 - x)).
  assert (E2 : load_be n m' 0 = load n m 0).
  { apply load_be_load_rev. intros. unfold m', rd. rewrite Z.mod_mod by lia. do 2 f_equal; lia. }
  rewrite <- E, <- E2, be_bytes_load_be.
  apply nth_ext with (d := 0) (d' := 0); [rewrite rev_length, !bytes_length; reflexivity|].
  rewrite bytes_length. intros i Hi. rewrite rev_nth by (rewrite bytes_length; exact Hi).
  rewrite bytes_length, !bytes_nth by lia. unfold m', rd. rewrite Z.mod_mod by lia. do 2 f_equal. lia.
Qed.

Lemma swap_value : forall f n, (f, n) = (swap_i32_bytes, 4%nat) \/ (f, n) = (swap_i64_bytes, 8%nat) ->
  forall w v, 0 <= v < 256 ^ Z.of_nat n ->
  exists r, returns f [v] w [r] w /\ be_bytes n r = rev (be_bytes n v) /\ 0 <= r < 256 ^ Z.of_nat n /\
    returns f [r] w [v] w.
Proof.
  intros f n H w v Hv. exists (bswap n v). pose proof (bswap_range n v) as R.
  split; [|split; [apply bswap_bytes; exact Hv|split; [exact R|]]].
  - destruct H as [H|H]; injection H as -> ->; [apply swap_i32_spec|apply swap_i64_spec]; exact Hv.
  - rewrite <- (bswap_bswap n v Hv) at 2.
    destruct H as [H|H]; injection H as -> ->; [apply swap_i32_spec|apply swap_i64_spec]; exact R.
Qed.

Lemma swap_mem : forall f n, (f, n) = (swap_i128_bytes, 16%nat) \/ (f, n) = (swap_i256_bytes, 32%nat) ->
  forall w src dst, wok w -> live w src (Z.of_nat n) -> live w dst (Z.of_nat n) ->
  exists m', returns f [src; dst] w [] (set_mem w m') /\
    bytes n m' dst = rev (bytes n (mem w) src) /\
    (forall x, ~ within dst (Z.of_nat n) x -> rd m' x = rd (mem w) x) /\
    load_be n m' dst = load n (mem w) src /\ load n m' dst = load_be n (mem w) src.
Proof.
  intros f n H w src dst Hw Ls Ld.
  assert (G : exists N, f = swap_bytes N /\ n = (8 * N)%nat).
  { destruct H as [H|H]; injection H as -> ->; [exists 2%nat|exists 4%nat]; split; reflexivity. }
  destruct G as (N&->&->). replace (Z.of_nat (8 * N)) with (8 * Z.of_nat N) in * by lia.
  destruct (swap_bytes_spec N w src dst Hw Ls Ld) as (m'&R&O&I). exists m'. split; [exact R|].
  split; [|split; [exact O|split]].
  - apply nth_ext with (d := 0) (d' := 0); [rewrite rev_length, !bytes_length; reflexivity|].
    rewrite bytes_length. intros i Hi. rewrite rev_nth by (rewrite bytes_length; exact Hi).
    rewrite bytes_length, !bytes_nth by lia. rewrite I by lia. f_equal. lia.
  - apply load_be_load_rev. intros. rewrite I by lia. f_equal. lia.
  - symmetry. apply load_be_load_rev. intros. rewrite I by lia. f_equal. lia.
Qed.

Lemma ascii_decimal : forall w n, wok w -> 0 <= n < 2 ^ 64 ->
  (exists w' p bs, returns u64_to_ascii_base_10 [n] w [p] w' /\ extends w w' /\ gnext w <= p /\
     is_decimal n bs /\ rd (mem w') p = Z.of_nat (List.length bs) /\ bytes (List.length bs) (mem w') (p + 1) = bs)
  \/ out_of_memory u64_to_ascii_base_10 [n] w 21.
Proof.
  intros w n Hw Hn. destruct (wpf_cases _ _ _ _ _ (u64_to_ascii_spec w n Hw Hn)) as [(vs&w'&R&L&->&X&HL&G&D1&D2&E&B)|T]; [left|right; exact T].
  exists w', (gnext w), (digits L n). rewrite digits_length. split; [exact R|]. split; [exact X|]. split; [lia|].
  split; [apply digits_is_decimal; auto; lia|]. auto.
Qed.

Lemma abort_payload : forall w code, wok w -> 0 <= code < 2 ^ 64 ->
  (exists msg, is_decimal code msg /\ reverts_with abort_fn [code] w msg) \/ out_of_memory abort_fn [code] w 125.
Proof.
  intros w code Hw Hn. destruct (wpf_cases _ _ _ _ _ (abort_fn_spec w code Hw Hn)) as [(vs&w'&R&->&L&D&HL&W&G&H&V&P&F&E&B)|T]; [left|right; exact T].
  exists (digits L code). split; [exact D|]. exists w'. repeat (split; [assumption|]). split; [|auto].
  assert (E1 : Z.of_nat (List.length (error_string (digits L code))) = 68 + Z.of_nat (L + pad32 L)).
  { unfold error_string, enc_bytes, padded, word. rewrite !app_length, !be_bytes_length, repeat_length, digits_length. cbn [List.length]. lia. }
  rewrite E1. unfold live in *. lia.
Qed.

Lemma abort_const_payload : forall w c msg, wok w -> Forall (fun b => 0 <= b < 256) msg -> (List.length msg < 256)%nat ->
  reverts_with (abort_const_fn c msg) [c] w msg \/ out_of_memory (abort_const_fn c msg) [c] w (104 + Z.of_nat (List.length msg)).
Proof.
  intros w c msg Hw HF HL. destruct (wpf_cases _ _ _ _ _ (abort_const_spec w c msg c Hw HF HL)) as [(vs&w'&R&->&_&W&G&H&V&P&F&E&B)|(T&O)]; [left|right].
  - exists w'. repeat (split; [assumption|]). auto.
  - split; [exact T|]. destruct O as [O|O]; [congruence|]. eapply oom_mono; [exact O|lia].
Qed.
