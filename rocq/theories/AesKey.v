(** The key schedules of crypto/aes.h are those of FIPS-197. *)
From Coq Require Import Arith ZArith NArith List Bool Lia.
From Verif Require Import Base Codec AesSpec Aes AesOk.
Import ListNotations.
Open Scope N_scope.
Local Opaque sub SBox gf_mul.

Fixpoint doubled (cs : list N) : list N := match cs with [] => [] | c :: cs => c :: c * 2 :: doubled cs end.
Lemma expand192_recurrent cs : forall x0 x2 x3, d0 x2 = zero_word ->
  let L := flat (x0 :: expand192 x0 x2 x3 x3 cs) in
  recurrent 6 (doubled cs) L /\ (cs <> [] -> nth 4 L zero_word = d0 x3 /\ nth 5 L zero_word = d1 x3).
Proof.
  induction cs as [|c cs IH]; intros x0 x2 x3 Z.
  { split; [|congruence]. intros i Hi. cbn in Hi. lia. }
  cbn [expand192]. destruct (expand_assist x0 x2 x3 85 c) as [v u] eqn:E.
  destruct (assist_words _ _ _ _ _ _ _ Z E ltac:(right; left; reflexivity)) as (Zu & A0 & A1 & A2 & A3).
  set (x3a := _mm_xor_si128 x3 (_mm_slli_si128_4 x3)). set (x3b := _mm_xor_si128 x3a (_mm_shuffle_epi32 v 255)).
  assert (B0 : d0 x3b = wxor (d0 x3) (d3 v)).
  { unfold x3b, x3a. cbn [d0 _mm_xor_si128 _mm_slli_si128_4 _mm_shuffle_epi32]. change (dword v (field 255 0)) with (d3 v). rewrite wxor_0. reflexivity. }
  assert (B1 : d1 x3b = wxor (d1 x3) (d0 x3b)).
  { rewrite B0. unfold x3b, x3a. cbn [d0 d1 _mm_xor_si128 _mm_slli_si128_4 _mm_shuffle_epi32]. change (dword v (field 255 1)) with (d3 v). apply wxor_assoc. }
  destruct (expand_assist v u x3b 85 (c * 2)) as [v' u'] eqn:E'.
  destruct (assist_words _ _ _ _ _ _ _ Zu E' ltac:(right; left; reflexivity)) as (Zu' & A0' & A1' & A2' & A3').
  set (x3c := _mm_xor_si128 x3b (_mm_slli_si128_4 x3b)). set (x3d := _mm_xor_si128 x3c (_mm_shuffle_epi32 v' 255)).
  assert (C0 : d0 x3d = wxor (d0 x3b) (d3 v')).
  { unfold x3d, x3c. cbn [d0 _mm_xor_si128 _mm_slli_si128_4 _mm_shuffle_epi32]. change (dword v' (field 255 0)) with (d3 v'). rewrite wxor_0. reflexivity. }
  assert (C1 : d1 x3d = wxor (d1 x3b) (d0 x3d)).
  { rewrite C0. unfold x3d, x3c. cbn [d0 d1 _mm_xor_si128 _mm_slli_si128_4 _mm_shuffle_epi32]. change (dword v' (field 255 1)) with (d3 v'). apply wxor_assoc. }
  clearbody x3d x3b. clear x3c x3a.
  specialize (IH v' u' x3d Zu'). cbv zeta in IH. destruct IH as [IH1 IH2].
  set (L' := flat (v' :: expand192 v' u' x3d x3d cs)) in *.
  assert (EL : flat (x0 :: _mm_shuffle_ps x3 v 68 :: _mm_shuffle_ps v x3b 78 :: v' :: expand192 v' u' x3d x3d cs) =
    [d0 x0; d1 x0; d2 x0; d3 x0; d0 x3; d1 x3; d0 v; d1 v; d2 v; d3 v; d0 x3b; d1 x3b] ++ L') by reflexivity.
  rewrite EL. split; [|intros _; split; reflexivity].
  intros i Hi. rewrite app_length in Hi. cbn [length] in Hi.
  assert (NS : forall j, (12 <= j)%nat -> nth j ([d0 x0; d1 x0; d2 x0; d3 x0; d0 x3; d1 x3; d0 v; d1 v; d2 v; d3 v; d0 x3b; d1 x3b] ++ L') zero_word = nth (j - 12) L' zero_word).
  { intros j Hj. apply app_nth2. exact Hj. }
  destruct (Nat.lt_ge_cases i 18) as [H|H].
  - assert (N3 : nth 0 L' zero_word = d0 v' /\ nth 1 L' zero_word = d1 v' /\ nth 2 L' zero_word = d2 v' /\ nth 3 L' zero_word = d3 v') by (repeat split; reflexivity).
    destruct N3 as (N0 & N1 & N2 & N3).
    assert (NE : (16 <= i)%nat -> cs <> []). { intros H1 ->. cbn in Hi. lia. }
    do 6 (destruct i as [|i]; [lia|]).
    destruct i as [|[|[|[|[|[|[|[|[|[|[|[|i]]]]]]]]]]]]; [..|lia]; cbn [nth Nat.sub app]; rewrite ?N0, ?N1, ?N2, ?N3.
    + exact A0.
    + exact A1.
    + exact A2.
    + exact A3.
    + exact B0.
    + exact B1.
    + exact A0'.
    + exact A1'.
    + exact A2'.
    + exact A3'.
    + destruct (IH2 (NE ltac:(lia))) as [-> _]. exact C0.
    + destruct (IH2 (NE ltac:(lia))) as [-> ->]. exact C1.
  - specialize (IH1 (i - 12)%nat ltac:(lia)).
    change (doubled (c :: cs)) with ([c; c * 2] ++ doubled cs). rewrite (temp_shift 6 (doubled cs) [c; c * 2] i _ 2) by (cbn; lia).
    replace (i - 2 * 6)%nat with (i - 12)%nat by lia. rewrite !NS by lia. rewrite IH1.
    replace (i - 6 - 12)%nat with (i - 12 - 6)%nat by lia. replace (i - 1 - 12)%nat with (i - 12 - 1)%nat by lia. reflexivity.
Qed.

Lemma expand256_recurrent cs : forall x0 x2 x3, d0 x2 = zero_word -> recurrent 8 (cs ++ [64]) (flat (x0 :: x3 :: expand256 x0 x2 x3 cs)).
Proof.
  induction cs as [|c cs IH]; intros x0 x2 x3 Z i Hi; cbn [expand256] in *.
  - destruct (expand_assist x0 x2 x3 255 64) as [v u] eqn:E.
    destruct (assist_words _ _ _ _ _ _ _ Z E ltac:(left; reflexivity)) as (Zu & A0 & A1 & A2 & A3).
    cbn [flat flat_map app length] in *. do 8 (destruct i as [|i]; [lia|]).
    destruct i as [|[|[|[|i]]]]; [..|lia]; cbn [nth Nat.sub]; [exact A0|exact A1|exact A2|exact A3].
  - destruct (expand_assist x0 x2 x3 255 c) as [v u] eqn:E.
    destruct (assist_words _ _ _ _ _ _ _ Z E ltac:(left; reflexivity)) as (Zu & A0 & A1 & A2 & A3).
    destruct (expand_assist x3 u v 170 c) as [v' u'] eqn:E'.
    destruct (assist_words _ _ _ _ _ _ _ Zu E' ltac:(right; right; left; reflexivity)) as (Zu' & A0' & A1' & A2' & A3').
    specialize (IH v u' v' Zu'). set (L' := flat (v :: v' :: expand256 v u' v' cs)) in *.
    assert (EL : flat (x0 :: x3 :: v :: v' :: expand256 v u' v' cs) = [d0 x0; d1 x0; d2 x0; d3 x0; d0 x3; d1 x3; d2 x3; d3 x3] ++ L') by reflexivity.
    rewrite EL in *. rewrite app_length in Hi. cbn [length] in Hi.
    destruct (Nat.lt_ge_cases i 16) as [H|H].
    + do 8 (destruct i as [|i]; [lia|]). unfold L'. rewrite !flat_cons.
      destruct i as [|[|[|[|[|[|[|[|i]]]]]]]]; [..|lia]; cbn [nth Nat.sub app];
        [exact A0|exact A1|exact A2|exact A3|exact A0'|exact A1'|exact A2'|exact A3'].
    + specialize (IH (i - 8)%nat ltac:(lia)). rewrite !app_nth2 by (cbn [length]; lia). cbn [length].
      change ((c :: cs) ++ [64]) with ([c] ++ (cs ++ [64])). rewrite (temp_shift 8 (cs ++ [64]) [c] i _ 1) by (cbn; lia).
      replace (i - 1 * 8)%nat with (i - 8)%nat by lia. rewrite IH.
      replace (i - 8 - 1)%nat with (i - 1 - 8)%nat by lia. reflexivity.
Qed.

(** * The recurrence determines the schedule *)
Definition bytes_ok (l : list N) : Prop := Forall is_byte l.
Lemma sub_word_ok w : wbyte w -> word_bytes (wmap sub w) = SubWord (word_bytes w).
Proof. intros (?&?&?&?). unfold word_bytes, wmap, SubWord. cbn [y0 y1 y2 y3 map]. rewrite !sub_ok by assumption. reflexivity. Qed.
Lemma key_words_length Nk key n : length (key_words Nk key n) = n.
Proof. induction n as [|n IH]; [reflexivity|]. cbn. rewrite app_length, IH. cbn. lia. Qed.
Lemma recurrent_words Nk rc L key : (Nk = 4 \/ Nk = 6 \/ Nk = 8)%nat -> (Nk <= length L)%nat -> recurrent Nk rc L ->
  (forall i, (i < Nk)%nat -> word_bytes (nth i L zero_word) = firstn 4 (skipn (4 * i) key) /\ wbyte (nth i L zero_word)) ->
  (forall j, (j < (length L - 1) / Nk)%nat -> nth j rc 0 = power_of_x j /\ power_of_x j < 256) ->
  map word_bytes L = key_words Nk key (length L) /\ Forall wbyte L.
Proof.
  intros HN LN R K P.
  assert (G : forall n, (n <= length L)%nat -> map word_bytes (firstn n L) = key_words Nk key n /\ Forall wbyte (firstn n L)).
  2:{ specialize (G _ (le_n _)). rewrite firstn_all in G. exact G. }
  induction n as [|n IH]; intros Hn; [split; [reflexivity|constructor]|].
  destruct (IH ltac:(lia)) as [I1 I2].
  assert (F : firstn (S n) L = firstn n L ++ [nth n L zero_word]).
  { clear -Hn. revert L Hn. induction n as [|n IH]; intros [|w L] Hn; cbn in *; try lia; [reflexivity|]. f_equal. apply IH. lia. }
  assert (NTH : forall k, (k < n)%nat -> nth k (key_words Nk key n) [] = word_bytes (nth k L zero_word) /\ wbyte (nth k L zero_word)).
  { intros k Hk. assert (LF : length (firstn n L) = n) by (apply firstn_length_le; lia).
    assert (E : nth k (firstn n L) zero_word = nth k L zero_word).
    { rewrite <- (firstn_skipn n L) at 2. rewrite app_nth1 by lia. reflexivity. }
    split.
    - rewrite <- I1. rewrite (nth_indep _ [] (word_bytes zero_word)) by (rewrite map_length; lia). rewrite map_nth. f_equal. exact E.
    - rewrite <- E. rewrite Forall_forall in I2. apply I2, nth_In. lia. }
  assert (W : word_bytes (nth n L zero_word) = next_word Nk key n (key_words Nk key n) /\ wbyte (nth n L zero_word)).
  { unfold next_word. destruct (Nat.ltb_spec n Nk) as [H|H]; [exact (K n H)|].
    rewrite (R n ltac:(lia)).
    destruct (NTH (n - 1)%nat ltac:(lia)) as [E1 B1]. destruct (NTH (n - Nk)%nat ltac:(lia)) as [E2 B2].
    assert (T : word_bytes (temp_word Nk rc n (nth (n - 1) L zero_word)) =
      (let temp := nth (n - 1) (key_words Nk key n) [] in
       if (n mod Nk =? 0)%nat then xor_word (SubWord (RotWord temp)) (Rcon (n / Nk))
       else if (6 <? Nk)%nat && (n mod Nk =? 4)%nat then SubWord temp else temp) /\ wbyte (temp_word Nk rc n (nth (n - 1) L zero_word))).
    { cbv zeta. rewrite E1. unfold temp_word. set (pw := nth (n - 1) L zero_word) in *.
      destruct (n mod Nk =? 0)%nat.
      - assert (Q : (n / Nk - 1 < (length L - 1) / Nk)%nat).
        { assert (1 <= n / Nk)%nat by (apply Nat.div_le_lower_bound; lia). assert (n / Nk <= (length L - 1) / Nk)%nat by (apply Nat.div_le_mono; lia). lia. }
        destruct (P _ Q) as [P1 P2]. split.
        + rewrite wxor_word. unfold Rcon. rewrite P1. f_equal. destruct B1 as (?&?&?&?). unfold word_bytes, rot_word, wmap, SubWord, RotWord. cbn [y0 y1 y2 y3 map app]. rewrite !sub_ok by assumption. reflexivity.
        + apply wxor_byte; [apply rot_byte, wsub_byte, B1|]. rewrite P1. repeat split; cbn; try reflexivity. exact P2.
      - destruct ((6 <? Nk) && (n mod Nk =? 4))%nat eqn:Q4.
        + split; [apply sub_word_ok, B1|apply wsub_byte, B1].
        + split; [reflexivity|exact B1]. }
    destruct T as [T1 T2]. split; [|apply wxor_byte; assumption]. rewrite wxor_word, T1, E2. reflexivity. }
  destruct W as [W1 W2]. rewrite F. split; [|apply Forall_app; split; [exact I2|constructor; [exact W2|constructor]]].
  rewrite map_app, I1. cbn [key_words map]. rewrite W1. reflexivity.
Qed.

(** * The three key sizes *)
Lemma load_ok mem n : (n + 16 <= length mem)%nat -> _mm_loadu_si128 mem n = Some (of_bytes (skipn n mem)).
Proof. intros H. unfold _mm_loadu_si128. destruct (Nat.leb_spec (n + 16) (length mem)); [reflexivity|lia]. Qed.
Lemma load_none mem n : (length mem < n + 16)%nat -> _mm_loadu_si128 mem n = None.
Proof. intros H. unfold _mm_loadu_si128. destruct (Nat.leb_spec (n + 16) (length mem)); [lia|reflexivity]. Qed.
Lemma nth_skipn {A} (l : list A) d : forall n i, nth i (skipn n l) d = nth (n + i) l d.
Proof. intros n. revert l. induction n as [|n IH]; intros [|x l] i; try reflexivity; [destruct i; reflexivity|]. apply IH. Qed.
Lemma word_at_skipn l n i : word_at (skipn n l) i = word_at l (n + i).
Proof. unfold word_at. rewrite !nth_skipn. f_equal; f_equal; lia. Qed.
Lemma four_bytes l i : (i + 4 <= length l)%nat -> word_bytes (word_at l i) = firstn 4 (skipn i l).
Proof.
  revert l. induction i as [|i IH]; intros l H.
  - destruct l as [|a [|b [|c [|d l]]]]; cbn in H; try lia. reflexivity.
  - destruct l as [|a l]; cbn in H; [lia|]. exact (IH l ltac:(lia)).
Qed.
Lemma word_at_byte l i : bytes_ok l -> wbyte (word_at l i).
Proof.
  intros B. assert (H : forall k, nth k l 0 < 256).
  { intros k. destruct (Nat.lt_ge_cases k (length l)); [|rewrite nth_overflow by lia; reflexivity]. unfold bytes_ok in B. rewrite Forall_forall in B. apply B, nth_In. assumption. }
  repeat split; apply H.
Qed.
(** The words of the key are the words of the memory. *)
Lemma key_in_mem mem n i : (4 * i + 4 <= 4 * n)%nat -> (4 * n <= length mem)%nat -> firstn 4 (skipn (4 * i) (firstn (4 * n) mem)) = word_bytes (word_at mem (4 * i)).
Proof.
  intros H1 H2. rewrite four_bytes by lia. rewrite skipn_firstn_comm, firstn_firstn. f_equal. lia.
Qed.
Lemma powers_ok : forall j, (j < 11)%nat -> nth j [1; 2; 4; 8; 16; 32; 64; 128; 27; 54; 108] 0 = power_of_x j /\ power_of_x j < 256.
Proof. intros j H. do 11 (destruct j as [|j]; [vm_compute; split; reflexivity|]). lia. Qed.

Definition round_keys (mem : list N) (bits : Z) : option (list m128) :=
  if (bits =? 128)%Z then AES128KeyExpansion mem else if (bits =? 192)%Z then AES192KeyExpansion mem else AES256KeyExpansion mem.
(** [mem] is the memory from the key on; of 192 bits the code reads 256. *)
Theorem key_schedule mem Nk : (Nk = 4 \/ Nk = 6 \/ Nk = 8)%nat -> bytes_ok mem ->
  (length mem >= match Nk with 4 => 16 | _ => 32 end)%nat ->
  exists ks, round_keys mem (32 * Z.of_nat Nk) = Some ks /\ length ks = (Nk + 7)%nat /\
    map word_bytes (flat ks) = key_words Nk (firstn (4 * Nk) mem) (4 * (Nk + 7)) /\ Forall wbyte (flat ks).
Proof.
  intros HN B L.
  assert (KW : forall i, (i < Nk)%nat -> firstn 4 (skipn (4 * i) (firstn (4 * Nk) mem)) = word_bytes (word_at mem (4 * i))).
  { intros i Hi. apply key_in_mem; destruct HN as [->|[->| ->]]; lia. }
  assert (BW : forall i, wbyte (word_at mem i)) by (intros; apply word_at_byte, B).
  destruct HN as [->|[->| ->]]; cbv beta iota in L.
  - exists (of_bytes mem :: expand128 (of_bytes mem) _mm_setzero_si128 [1; 2; 4; 8; 16; 32; 64; 128; 27; 54]).
    split; [|split; [reflexivity|]].
    { change (round_keys mem (32 * Z.of_nat 4)) with (AES128KeyExpansion mem). unfold AES128KeyExpansion. rewrite load_ok by lia. reflexivity. }
    change (4 * (4 + 7))%nat with (length (flat (of_bytes mem :: expand128 (of_bytes mem) _mm_setzero_si128 [1; 2; 4; 8; 16; 32; 64; 128; 27; 54]))).
    apply (recurrent_words 4 [1; 2; 4; 8; 16; 32; 64; 128; 27; 54]); [lia|cbn [length flat flat_map app]; lia|apply expand128_recurrent; reflexivity|..].
    + intros i Hi. rewrite KW by exact Hi. destruct i as [|[|[|[|i]]]]; [..|lia]; (split; [reflexivity|apply BW]).
    + intros j Hj. change (j < 10)%nat in Hj. destruct (powers_ok j ltac:(lia)) as [<- Q]. split; [|exact Q]. do 10 (destruct j as [|j]; [reflexivity|]). lia.
  - exists (of_bytes mem :: expand192 (of_bytes mem) _mm_setzero_si128 (of_bytes (skipn 16 mem)) (of_bytes (skipn 16 mem)) [1; 4; 16; 64]).
    split; [|split; [reflexivity|]].
    { change (round_keys mem (32 * Z.of_nat 6)) with (AES192KeyExpansion mem). unfold AES192KeyExpansion. rewrite !load_ok by lia. reflexivity. }
    change (4 * (6 + 7))%nat with (length (flat (of_bytes mem :: expand192 (of_bytes mem) _mm_setzero_si128 (of_bytes (skipn 16 mem)) (of_bytes (skipn 16 mem)) [1; 4; 16; 64]))).
    destruct (expand192_recurrent [1; 4; 16; 64] (of_bytes mem) _mm_setzero_si128 (of_bytes (skipn 16 mem)) eq_refl) as [R R2]. destruct (R2 ltac:(discriminate)) as [R4 R5].
    apply (recurrent_words 6 (doubled [1; 4; 16; 64])); [lia|change (6 <= 52)%nat; lia|exact R|..].
    + intros i Hi. rewrite KW by exact Hi.
      assert (E : forall k, word_at (skipn 16 mem) k = word_at mem (16 + k)) by (intros; apply word_at_skipn).
      destruct i as [|[|[|[|[|[|i]]]]]]; [..|lia]; try (split; [reflexivity|apply BW]).
      * rewrite R4. cbn [of_bytes d0]. rewrite E. split; [reflexivity|apply BW].
      * rewrite R5. cbn [of_bytes d1]. rewrite E. split; [reflexivity|apply BW].
    + intros j Hj. change (j < 8)%nat in Hj. destruct (powers_ok j ltac:(lia)) as [<- Q]. split; [|exact Q]. do 8 (destruct j as [|j]; [reflexivity|]). lia.
  - exists (of_bytes mem :: of_bytes (skipn 16 mem) :: expand256 (of_bytes mem) _mm_setzero_si128 (of_bytes (skipn 16 mem)) [1; 2; 4; 8; 16; 32]).
    split; [|split; [reflexivity|]].
    { change (round_keys mem (32 * Z.of_nat 8)) with (AES256KeyExpansion mem). unfold AES256KeyExpansion. rewrite !load_ok by lia. reflexivity. }
    change (4 * (8 + 7))%nat with (length (flat (of_bytes mem :: of_bytes (skipn 16 mem) :: expand256 (of_bytes mem) _mm_setzero_si128 (of_bytes (skipn 16 mem)) [1; 2; 4; 8; 16; 32]))).
    apply (recurrent_words 8 ([1; 2; 4; 8; 16; 32] ++ [64])); [lia|cbn [length flat flat_map app]; lia|apply expand256_recurrent; reflexivity|..].
    + intros i Hi. rewrite KW by exact Hi.
      assert (E : forall k, word_at (skipn 16 mem) k = word_at mem (16 + k)) by (intros; apply word_at_skipn).
      destruct i as [|[|[|[|[|[|[|[|i]]]]]]]]; [..|lia]; cbn [nth flat flat_map app of_bytes d0 d1 d2 d3]; rewrite ?E; (split; [reflexivity|apply BW]).
    + intros j Hj. change (j < 7)%nat in Hj. destruct (powers_ok j ltac:(lia)) as [<- Q]. split; [|exact Q]. do 7 (destruct j as [|j]; [reflexivity|]). lia.
Qed.
