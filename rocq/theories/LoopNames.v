(** Lemmas about the names of scenes and files. *)
From Coq Require Import Ascii String List ZArith Lia Bool Permutation Decimal DecimalString DecimalNat DecimalFacts.
From Verif Require Import Prelude LoopModel LoopSpec.
Import ListNotations.
Local Notation length := List.length.
Local Notation app := List.app.
Local Notation rev := List.rev.

(** ** Names *)
Lemma chars_app s t : chars (s ++ t) = (chars s ++ chars t)%list.
Proof. induction s as [|c s IH]; cbn; auto. rewrite IH. reflexivity. Qed.
Lemma chars_inj s t : chars s = chars t -> s = t.
Proof.
  revert t. induction s as [|c s IH]; intros [|d t] H; cbn in H; try discriminate; auto.
  injection H as -> H. f_equal. auto.
Qed.
Lemma length_chars s : length (chars s) = String.length s.
Proof. induction s as [|c s IH]; cbn; auto. Qed.
Lemma chars_zeros k : chars (zeros k) = repeat "0"%char k.
Proof. induction k as [|k IH]; cbn; auto. rewrite IH. reflexivity. Qed.

Definition step (v : nat) (c : ascii) : nat := (v * 10 + (nat_of_ascii c - 48))%nat.
Lemma value_uint d : forall acc, fold_left step (chars (NilEmpty.string_of_uint d)) acc = Nat.of_uint_acc d acc.
Proof.
  induction d as [|d IH|d IH|d IH|d IH|d IH|d IH|d IH|d IH|d IH|d IH]; intros acc; [reflexivity|..];
    cbn [NilEmpty.string_of_uint chars fold_left Nat.of_uint_acc]; rewrite IH; f_equal; unfold step;
    rewrite ?Nat.tail_mul_spec; (match goal with |- context [nat_of_ascii ?c] => let v := eval compute in (nat_of_ascii c) in change (nat_of_ascii c) with v end); lia.
Qed.
Lemma digits_uint d : Forall digit (chars (NilEmpty.string_of_uint d)).
Proof. induction d as [|d IH|d IH|d IH|d IH|d IH|d IH|d IH|d IH|d IH|d IH]; cbn; constructor; auto; unfold digit; cbn; lia. Qed.
Lemma uint_norm n : Nat.to_uint n = unorm (Nat.to_uint n).
Proof. rewrite <- Unsigned.to_of, Unsigned.of_to. reflexivity. Qed.
Lemma dec_value n : fold_left step (chars (dec n)) 0%nat = n /\ Forall digit (chars (dec n)).
Proof.
  unfold dec, NilZero.string_of_uint. destruct (Nat.to_uint n) eqn:E.
  1: { pose proof (uint_norm n) as U. rewrite E in U. discriminate. }
  all: rewrite <- E; split; [rewrite value_uint; change (Nat.of_uint (Nat.to_uint n) = n); apply Unsigned.of_to|apply digits_uint].
Qed.
Lemma nzhead_head d : forall u, nzhead d <> D0 u.
Proof. induction d; cbn; auto; intros; discriminate. Qed.
Lemma dec_head n c l : chars (dec n) = c :: l -> nat_of_ascii c = 48%nat -> l = [].
Proof.
  unfold dec, NilZero.string_of_uint. pose proof (uint_norm n) as U. destruct (Nat.to_uint n) as [|d|d|d|d|d|d|d|d|d|d];
    cbn [NilEmpty.string_of_uint chars]; intros H; injection H as <- <-; intros C; try (vm_compute in C; discriminate).
  unfold unorm in U. change (nzhead (D0 d)) with (nzhead d) in U. destruct (nzhead d) eqn:E; try discriminate.
  - injection U as ->. reflexivity.
  - exfalso. apply (nzhead_head d _ E).
Qed.
Lemma dec_nonempty n : (0 < length (chars (dec n)))%nat.
Proof.
  unfold dec, NilZero.string_of_uint. destruct (Nat.to_uint n); cbn; lia.
Qed.
Lemma fold_zeros k l v : fold_left step (repeat "0"%char k ++ l) v = fold_left step l (v * 10 ^ k)%nat.
Proof.
  revert v. induction k as [|k IH]; intros v.
  - cbn. f_equal. lia.
  - change (fold_left step (repeat "0"%char k ++ l) (step v "0"%char) = fold_left step l (v * 10 ^ S k)%nat).
    rewrite IH. f_equal. unfold step. change (nat_of_ascii "0") with 48%nat. rewrite Nat.pow_succ_r'. nia.
Qed.
Lemma padded_writes w n : (0 < w)%nat -> writes w n (padded w n).
Proof.
  intros W. unfold writes, padded. rewrite chars_app, chars_zeros. destruct (dec_value n) as [V D].
  rewrite app_length, repeat_length, <- length_chars. split; [|split; [|split]].
  - rewrite Forall_app. split; auto. apply Forall_forall. intros c Hc. apply repeat_spec in Hc. subst. unfold digit. cbn. lia.
  - unfold value. change (fun v c => (v * 10 + (nat_of_ascii c - 48))%nat) with step. rewrite chars_app, chars_zeros, fold_zeros. exact V.
  - lia.
  - intros L c l H. assert (Z : (w - length (chars (dec n)) = 0)%nat) by lia. rewrite Z in *. cbn [repeat app] in H.
    intros C. pose proof (dec_head n c l H C) as ->. rewrite H in L. cbn in L. lia.
Qed.
Lemma writes_inj w n n' s : writes w n s -> writes w n' s -> n = n'.
Proof. intros (_ & <- & _) (_ & <- & _). reflexivity. Qed.
Lemma padded_inj w n n' : (0 < w)%nat -> padded w n = padded w n' -> n = n'.
Proof. intros W H. apply (writes_inj w n n' (padded w n)); [|rewrite H]; apply padded_writes; auto. Qed.
Lemma append_cancel_l a s t : (a ++ s)%string = (a ++ t)%string -> s = t.
Proof. intros H. apply (f_equal chars) in H. rewrite !chars_app in H. apply app_inv_head in H. apply chars_inj; auto. Qed.
Lemma append_cancel_r a s t : (s ++ a)%string = (t ++ a)%string -> s = t.
Proof. intros H. apply (f_equal chars) in H. rewrite !chars_app in H. apply app_inv_tail in H. apply chars_inj; auto. Qed.
Lemma scene_name_inj n n' : scene_name n = scene_name n' -> n = n'.
Proof. intros H. apply append_cancel_l in H. apply padded_inj in H; auto. Qed.
Lemma source_name_inj n n' : source_name n = source_name n' -> n = n'.
Proof. intros H. apply append_cancel_l, append_cancel_r in H. apply padded_inj in H; auto. Qed.
Lemma source_name_head n : exists s, source_name n = String "s" (String "o" (String "u" (String "r" (String "c" (String "e" (String "_" s)))))) /\
  forall c l, chars s = c :: l -> digit c.
Proof.
  eexists. split; [reflexivity|]. destruct (padded_writes 2 n ltac:(lia)) as (D & _ & L & _).
  intros c l. rewrite chars_app. destruct (chars (padded 2 n)) as [|d r]; [cbn in L; lia|]. cbn. intros H. injection H as <- _.
  inversion D; auto.
Qed.
Lemma nodup_app {A} (l l' : list A) : NoDup l -> NoDup l' -> (forall x, In x l -> ~ In x l') -> NoDup (l ++ l').
Proof.
  induction 1 as [|x l Hx _ IH]; intros H' D; cbn; auto. constructor.
  - rewrite in_app_iff. intros [H|H]; [auto|]. apply (D x); cbn; auto.
  - apply IH; auto. intros y Hy. apply D. cbn; auto.
Qed.
Lemma scene_files_nodup n : NoDup (scene_files n).
Proof.
  unfold scene_files. apply nodup_app.
  - apply FinFun.Injective_map_NoDup; [intros a b; apply source_name_inj|apply seq_NoDup].
  - repeat (constructor; [cbn; intuition discriminate|]). constructor.
  - intros x Hx. apply in_map_iff in Hx as (i & <- & _). destruct (source_name_head i) as (s & -> & D).
    intros [H|[H|[H|[]]]]; try discriminate. injection H as <-.
    assert (C : digit "i") by (eapply D; reflexivity). unfold digit in C. cbn in C. lia.
Qed.
