(** Proofs for C86. *)
From Coq Require Import Ascii String List ZArith Reals Bool Lia Lra.
From Verif Require Import Prelude FloatModel RoomModel BldModel LoopModel CliModel CliSpec.
Import ListNotations.
Local Notation length := List.length.
Local Open Scope string_scope.
Local Open Scope list_scope.

(** ** Texts *)
Lemma sapp_nil : forall s, (s ++ "")%string = s.
Proof. induction s; cbn; congruence. Qed.
Lemma sapp_assoc : forall a b c, ((a ++ b) ++ c = a ++ (b ++ c))%string.
Proof. induction a; intros; cbn; congruence. Qed.
Lemma sapp_inj : forall a b c, (a ++ b = a ++ c)%string -> b = c.
Proof. induction a; cbn; intros; auto. injection H; auto. Qed.
Lemma list_app : forall a b, list_ascii_of_string (a ++ b) = list_ascii_of_string a ++ list_ascii_of_string b.
Proof. induction a; intros; cbn; congruence. Qed.
Lemma has_app : forall c a b, has c (a ++ b) <-> has c a \/ has c b.
Proof. intros. unfold has. rewrite list_app. apply in_app_iff. Qed.
Lemma has_cons : forall c d s, has c (String d s) <-> d = c \/ has c s.
Proof. intros. unfold has. reflexivity. Qed.
Lemma prefix_starts : forall p s, String.prefix p s = true <-> starts p s.
Proof.
  induction p as [|c p IH]; intros s.
  - split; intros; [exists s; reflexivity|destruct s; reflexivity].
  - destruct s as [|d s]; cbn.
    + split; [discriminate|]. intros [r H]; discriminate.
    + destruct (ascii_dec c d) as [->|N].
      * rewrite IH. split; intros [r H]; exists r; [cbn; congruence|cbn in H; congruence].
      * split; [discriminate|]. intros [r H]. cbn in H. congruence.
Qed.
Lemma partition_spec : forall s, let '(p, e) := partition_eq s in
  ~ has "=" p /\ match e with None => s = p | Some v => s = (p ++ "=" ++ v)%string end.
Proof.
  induction s as [|c s IH]; cbn; [split; [intros []|reflexivity]|].
  destruct (Ascii.eqb c "=") eqn:E.
  - apply Ascii.eqb_eq in E. subst. split; [intros []|reflexivity].
  - apply Ascii.eqb_neq in E. destruct (partition_eq s) as [p e]. destruct IH as [H1 H2]. split.
    + rewrite has_cons. intros [H|H]; auto.
    + destruct e; rewrite H2; reflexivity.
Qed.
Lemma partition_none : forall p, ~ has "=" p -> partition_eq p = (p, None).
Proof.
  induction p as [|c p IH]; intros H; [reflexivity|]. cbn. rewrite has_cons in H.
  destruct (Ascii.eqb_spec c "=") as [->|N]; [tauto|]. rewrite IH by tauto. reflexivity.
Qed.
Lemma partition_some : forall p v, ~ has "=" p -> partition_eq (p ++ "=" ++ v) = (p, Some v).
Proof.
  induction p as [|c p IH]; intros v H; [reflexivity|]. cbn. rewrite has_cons in H.
  destruct (Ascii.eqb_spec c "=") as [->|N]; [tauto|]. cbn in IH. rewrite IH by tauto. reflexivity.
Qed.
Lemma has_blank_spec : forall s, has_blank s = true <-> has " " s.
Proof.
  induction s as [|c s IH]; cbn [has_blank]; [split; [discriminate|intros []]|].
  rewrite orb_true_iff, IH, has_cons, Ascii.eqb_eq. tauto.
Qed.

(** ** Digits *)
Lemma digit_char : forall d, (d < 10)%nat -> is_digit (ascii_of_nat (48 + d)) = true /\ nat_of_ascii (ascii_of_nat (48 + d)) = (48 + d)%nat.
Proof. intros d H. do 10 (destruct d as [|d]; [vm_compute; split; reflexivity|]). lia. Qed.
Lemma is_digit_inv : forall c, is_digit c = true -> exists d, (d < 10)%nat /\ c = ascii_of_nat (48 + d).
Proof.
  intros c H. unfold is_digit in H. apply andb_true_iff in H. destruct H as [H1 H2]. apply Nat.leb_le in H1, H2.
  exists (nat_of_ascii c - 48)%nat. split; [lia|].
  replace (48 + (nat_of_ascii c - 48))%nat with (nat_of_ascii c) by lia. symmetry. apply ascii_nat_embedding.
Qed.
(** no digit at the front *)
Definition no_digit (s : string) : Prop := match s with String c _ => is_digit c = false | EmptyString => True end.
Lemma span_spec : forall s acc, let '(a, n, t) := span_digits acc s in
  exists ds, decimal ds /\ length ds = n /\ s = (digits_text ds ++ t)%string /\ no_digit t /\ a = (acc * 10 ^ Z.of_nat n + positional ds)%Z.
Proof.
  induction s as [|c s IH]; intros acc.
  - cbn. exists []. split; [constructor|]. cbn. repeat split; lia.
  - cbn [span_digits]. destruct (is_digit c) eqn:D.
    + pose proof (is_digit_inv c D) as [d [Hd Ec]].
      specialize (IH (acc * 10 + Z.of_nat (nat_of_ascii c - 48))%Z).
      destruct (span_digits _ s) as [[a n] t]. destruct IH as [ds [H1 [H2 [H3 [H4 H5]]]]].
      exists (d :: ds). split; [constructor; assumption|]. split; [cbn; lia|]. split; [cbn; subst; reflexivity|]. split; [exact H4|].
      subst c. rewrite (proj2 (digit_char d Hd)) in H5. replace (48 + d - 48)%nat with d in H5 by lia.
      rewrite H5. rewrite Nat2Z.inj_succ, Z.pow_succ_r by lia. cbn [positional]. rewrite H2. ring.
    + exists []. split; [constructor|]. cbn. repeat split; [exact D|lia].
Qed.
Lemma span_digits_text : forall ds t acc, decimal ds -> no_digit t ->
  span_digits acc (digits_text ds ++ t) = ((acc * 10 ^ Z.of_nat (length ds) + positional ds)%Z, length ds, t).
Proof.
  induction ds as [|d ds IH]; intros t acc D N.
  - cbn [digits_text string_of_list_ascii map append length positional]. destruct t as [|c t]; cbn.
    + repeat f_equal; lia.
    + cbn in N. rewrite N. repeat f_equal; lia.
  - inversion D; subst. cbn [digits_text map string_of_list_ascii append span_digits length positional].
    destruct (digit_char d H1) as [E1 E2]. rewrite E1, E2. replace (48 + d - 48)%nat with d by lia.
    fold (digits_text ds). rewrite IH by assumption. rewrite Nat2Z.inj_succ, Z.pow_succ_r by lia. f_equal; f_equal; ring.
Qed.
Lemma digits_text_app : forall a b, digits_text (a ++ b) = (digits_text a ++ digits_text b)%string.
Proof. induction a as [|d a IH]; intros b; [reflexivity|]. unfold digits_text in *. cbn [app map string_of_list_ascii append]. rewrite IH. reflexivity. Qed.
Lemma positional_app : forall a b, positional (a ++ b) = (positional a * 10 ^ Z.of_nat (length b) + positional b)%Z.
Proof.
  induction a as [|d a IH]; intros b; cbn [app positional]; [lia|].
  rewrite IH, app_length, Nat2Z.inj_add, Z.pow_add_r by lia. ring.
Qed.
Lemma digits_first : forall d ds, exists c r, digits_text (d :: ds) = String c r /\ c = ascii_of_nat (48 + d).
Proof. intros. eexists _, _. split; reflexivity. Qed.
Lemma signed_spec : forall s, let '(n, r) := signed s in exists sg f, sign sg f /\ s = (sg ++ r)%string /\ f = (if n then -1 else 1)%Z.
Proof.
  intros s. destruct s as [|c s]; [exists ""%string, 1%Z; repeat split; constructor|].
  destruct (ascii_dec c "-") as [->|N1]; [exists "-"%string, (-1)%Z; repeat split; constructor|].
  destruct (ascii_dec c "+") as [->|N2]; [exists "+"%string, 1%Z; repeat split; constructor|].
  cbn [signed]. rewrite (proj2 (Ascii.eqb_neq _ _) N1), (proj2 (Ascii.eqb_neq _ _) N2).
  exists ""%string, 1%Z. repeat split; constructor.
Qed.
(** not a sign at the front *)
Lemma signed_text : forall sg f r, sign sg f -> (forall c u, r = String c u -> c <> "-"%char /\ c <> "+"%char) ->
  signed (sg ++ r) = ((f =? -1)%Z, r).
Proof.
  intros sg f r H N. destruct H; cbn; try reflexivity.
  destruct r as [|c u]; [reflexivity|]. destruct (N c u eq_refl) as [A B].
  cbn [signed append]. rewrite (proj2 (Ascii.eqb_neq _ _) A), (proj2 (Ascii.eqb_neq _ _) B). reflexivity.
Qed.
Lemma digit_no_sign : forall d, (d < 10)%nat -> ascii_of_nat (48 + d) <> "-"%char /\ ascii_of_nat (48 + d) <> "+"%char.
Proof. intros d H. do 10 (destruct d as [|d]; [vm_compute; split; discriminate|]). lia. Qed.
Lemma digits_no_sign : forall ds t, decimal ds -> (forall c u, t = String c u -> c <> "-"%char /\ c <> "+"%char) ->
  forall c u, (digits_text ds ++ t)%string = String c u -> c <> "-"%char /\ c <> "+"%char.
Proof.
  intros [|d ds] t D N c u E; [apply (N c u); exact E|].
  inversion D; subst. unfold digits_text in E. cbn [map string_of_list_ascii append] in E.
  pose proof (digit_no_sign d H1) as Q. revert Q E. generalize (ascii_of_nat (48 + d)). intros a Q E.
  assert (a = c) as <- by congruence. exact Q.
Qed.

Lemma read_int_spec : forall X s z, read_int X s = Some z <-> int_text X s z.
Proof.
  intros X s z. unfold read_int, int_text.
  pose proof (signed_spec s) as SG. destruct (signed s) as [n r] eqn:ES. destruct SG as [sg [f [Hs [E1 E2]]]].
  pose proof (span_spec r 0) as SP. destruct (span_digits 0 r) as [[a k] t] eqn:EP. destruct SP as [ds [D [L [E3 [ND E4]]]]].
  destruct ((String.length s <=? 300)%nat && negb (k =? 0)%nat && String.eqb t "") eqn:C.
  - apply andb_true_iff in C. destruct C as [C C3]. apply andb_true_iff in C. destruct C as [C1 C2].
    apply Nat.leb_le in C1. apply negb_true_iff, Nat.eqb_neq in C2. apply String.eqb_eq in C3. subst t.
    rewrite sapp_nil in E3.
    assert (P : plain_int s (if n then - a else a)%Z).
    { exists sg, f, ds. split; [exact Hs|]. split; [exact D|]. split; [destruct ds; [cbn in L; lia|discriminate]|].
      split; [congruence|]. split; [exact C1|]. subst f. destruct n; lia. }
    split.
    + intros H. injection H as <-. left. exact P.
    + intros [H|[H _]]; [|exfalso; exact (H _ P)]. f_equal.
      destruct H as [sg' [f' [ds' [Hs' [D' [N' [E' [_ ->]]]]]]]].
      assert (Q : signed s = ((f' =? -1)%Z, digits_text ds')).
      { rewrite E'. apply signed_text; [exact Hs'|]. rewrite <- (sapp_nil (digits_text ds')).
        apply digits_no_sign; [exact D'|]. discriminate. }
      rewrite ES in Q. injection Q as -> Er. rewrite Er in EP. rewrite <- (sapp_nil (digits_text ds')) in EP.
      rewrite span_digits_text in EP by (auto; exact I). injection EP as <- _. destruct Hs'; cbn [Z.eqb Pos.eqb]; lia.
  - split.
    + intros H. right. split; [|exact H]. intros z' [sg' [f' [ds' [Hs' [D' [N' [E' [Len ->]]]]]]]].
      assert (Q : signed s = ((f' =? -1)%Z, digits_text ds')).
      { rewrite E'. apply signed_text; [exact Hs'|]. rewrite <- (sapp_nil (digits_text ds')).
        apply digits_no_sign; [exact D'|]. discriminate. }
      rewrite ES in Q. injection Q as -> Er. rewrite Er in EP. rewrite <- (sapp_nil (digits_text ds')) in EP.
      rewrite span_digits_text in EP by (auto; exact I). injection EP as _ <- <-.
      apply Nat.leb_le in Len. rewrite Len in C. cbn in C. rewrite andb_true_r in C. apply negb_false_iff, Nat.eqb_eq in C.
      destruct ds'; [congruence|discriminate].
    + intros [H|[_ H]]; [|exact H]. exfalso. destruct H as [sg' [f' [ds' [Hs' [D' [N' [E' [Len ->]]]]]]]].
      assert (Q : signed s = ((f' =? -1)%Z, digits_text ds')).
      { rewrite E'. apply signed_text; [exact Hs'|]. rewrite <- (sapp_nil (digits_text ds')).
        apply digits_no_sign; [exact D'|]. discriminate. }
      rewrite ES in Q. injection Q as -> Er. rewrite Er in EP. rewrite <- (sapp_nil (digits_text ds')) in EP.
      rewrite span_digits_text in EP by (auto; exact I). injection EP as _ <- <-.
      apply Nat.leb_le in Len. rewrite Len in C. cbn in C. rewrite andb_true_r in C. apply negb_false_iff, Nat.eqb_eq in C.
      destruct ds'; [congruence|discriminate].
Qed.

Lemma dot_no_sign : forall t c u, ("." ++ t)%string = String c u -> c <> "-"%char /\ c <> "+"%char.
Proof. intros t c u E. cbn in E. injection E as <- _. split; discriminate. Qed.
Lemma plain_float_read : forall X s x, plain_float s x -> read_float X s = Some (Fin x).
Proof.
  intros X s x [sg [f [a [b [Hs [Da [Db [N [Len [E ->]]]]]]]]]]. unfold read_float.
  destruct E as [E|[-> E]].
  - assert (Q : signed s = ((f =? -1)%Z, (digits_text a ++ "." ++ digits_text b)%string)).
    { rewrite E. apply signed_text; [exact Hs|]. apply digits_no_sign; [exact Da|]. apply dot_no_sign. }
    rewrite Q. rewrite span_digits_text by (auto; reflexivity). cbn [append]. cbn [Ascii.eqb Bool.eqb].
    rewrite <- (sapp_nil (digits_text b)). rewrite span_digits_text by (auto; exact I).
    apply Nat.leb_le in Len. rewrite Len. 
    replace (negb (length a + length b =? 0)%nat) with true.
    2:{ symmetry. apply negb_true_iff, Nat.eqb_neq. rewrite <- app_length. destruct (a ++ b); [congruence|cbn; lia]. }
    cbn [andb String.eqb]. do 4 f_equal. f_equal. rewrite positional_app.
    destruct Hs; cbn [Z.eqb Pos.eqb]; lia.
  - assert (Q : signed s = ((f =? -1)%Z, (digits_text a ++ "")%string)).
    { rewrite sapp_nil, E. apply signed_text; [exact Hs|]. rewrite <- (sapp_nil (digits_text a)).
      apply digits_no_sign; [exact Da|]. discriminate. }
    rewrite Q. rewrite span_digits_text by (auto; exact I).
    apply Nat.leb_le in Len. rewrite Len. rewrite app_nil_r in *.
    replace (negb (length a + 0 =? 0)%nat) with true.
    2:{ symmetry. apply negb_true_iff, Nat.eqb_neq. destruct a; [congruence|cbn; lia]. }
    cbn [andb String.eqb]. do 4 f_equal. f_equal.
    destruct Hs; cbn [Z.eqb Pos.eqb]; lia.
Qed.
Lemma read_float_cases : forall X s, (exists r, plain_float s r /\ read_float X s = Some (Fin r)) \/ read_float X s = t_float X s /\ forall r, ~ plain_float s r.
Proof.
  intros X s.
  assert (D : (exists r, plain_float s r) \/ (read_float X s = t_float X s /\ forall Y, read_float Y s = t_float Y s)).
  { unfold read_float.
    pose proof (signed_spec s) as SG. destruct (signed s) as [n r]. destruct SG as [sg [f [Hs [E1 E2]]]].
    pose proof (span_spec r 0) as SP. destruct (span_digits 0 r) as [[a k] t]. destruct SP as [ds [D [L [E3 [ND E4]]]]].
    destruct t as [|c v]; [|destruct (Ascii.eqb c ".") eqn:Ec].
    - destruct ((String.length s <=? 300)%nat && negb (k + 0 =? 0)%nat && String.eqb "" "") eqn:C; [|right; auto].
      apply andb_true_iff in C. destruct C as [C _]. apply andb_true_iff in C. destruct C as [C1 C2].
      apply Nat.leb_le in C1. apply negb_true_iff, Nat.eqb_neq in C2. left. eexists. exists sg, f, ds, [].
      split; [exact Hs|]. split; [exact D|]. split; [constructor|]. split; [destruct ds; [cbn in L; lia|discriminate]|].
      split; [exact C1|]. split; [right; split; [reflexivity|]|reflexivity]. rewrite E1, E3, sapp_nil. reflexivity.
    - apply Ascii.eqb_eq in Ec. subst c.
      pose proof (span_spec v a) as SP. destruct (span_digits a v) as [[b m] u]. destruct SP as [ds2 [D2 [L2 [E5 [ND2 E6]]]]].
      destruct ((String.length s <=? 300)%nat && negb (k + m =? 0)%nat && String.eqb u "") eqn:C; [|right; auto].
      apply andb_true_iff in C. destruct C as [C C3]. apply andb_true_iff in C. destruct C as [C1 C2].
      apply Nat.leb_le in C1. apply negb_true_iff, Nat.eqb_neq in C2. apply String.eqb_eq in C3. subst u.
      left. eexists. exists sg, f, ds, ds2.
      split; [exact Hs|]. split; [exact D|]. split; [exact D2|]. split; [intros Z; apply (f_equal (@length nat)) in Z; rewrite app_length in Z; cbn in Z; lia|].
      split; [exact C1|]. split; [left|reflexivity]. rewrite E1, E3, E5, sapp_nil. reflexivity.
    - destruct ((String.length s <=? 300)%nat && negb (k + 0 =? 0)%nat && String.eqb (String c v) "") eqn:C; [|right; auto].
      apply andb_true_iff in C. destruct C as [_ C]. discriminate. }
  destruct D as [[r P]|[E F]].
  - left. exists r. split; [exact P|]. apply plain_float_read. exact P.
  - right. split; [exact E|]. intros r P.
    pose proof (plain_float_read (mkTexts (fun _ => None) (fun _ => None)) s r P) as Q. rewrite F in Q. discriminate.
Qed.
Lemma read_float_spec : forall X s x, read_float X s = Some x <-> float_text X s x.
Proof.
  intros X s x. unfold float_text. destruct (read_float_cases X s) as [[r [P E]]|[E N]]; rewrite E.
  - split.
    + intros H. injection H as <-. left. exists r. auto.
    + intros [[r' [P' ->]]|[N _]]; [|exfalso; exact (N r P)].
      rewrite <- E. apply plain_float_read. exact P'.
  - split; [intros H; right; auto|]. intros [[r' [P' _]]|[_ H]]; [exfalso; exact (N r' P')|exact H].
Qed.
Lemma negative_spec : forall v, negative_number v = true <-> minus_number v.
Proof.
  intros v. destruct v as [|c r].
  { cbn. split; [discriminate|]. intros [[ds [_ [_ E]]]|[a [b [_ [_ [_ E]]]]]]; discriminate. }
  cbn [negative_number]. pose proof (span_spec r 0) as SP. destruct (span_digits 0 r) as [[z k] t] eqn:EP. destruct SP as [ds [D [L [E [ND _]]]]].
  split.
  - intros H. apply andb_true_iff in H. destruct H as [Hc H]. apply Ascii.eqb_eq in Hc. subst c. destruct t as [|d t].
    + left. exists ds. apply negb_true_iff, Nat.eqb_neq in H. split; [exact D|]. split; [destruct ds; [cbn in L; lia|discriminate]|].
      rewrite E, sapp_nil. reflexivity.
    + pose proof (span_spec t 0) as SP. destruct (span_digits 0 t) as [[z2 m] u]. destruct SP as [ds2 [D2 [L2 [E2 _]]]].
      apply andb_true_iff in H. destruct H as [H H3]. apply andb_true_iff in H. destruct H as [H1 H2].
      apply Ascii.eqb_eq in H1. apply negb_true_iff, Nat.eqb_neq in H2. apply String.eqb_eq in H3. subst d u.
      right. exists ds, ds2. split; [exact D|]. split; [exact D2|]. split; [destruct ds2; [cbn in L2; lia|discriminate]|].
      rewrite E, E2, sapp_nil. reflexivity.
  - intros [[a [Da [Na Ea]]]|[a [b [Da [Db [Nb Ea]]]]]].
    + cbn in Ea. injection Ea as -> Er. rewrite <- (sapp_nil (digits_text a)) in Er. rewrite Er in EP.
      rewrite span_digits_text in EP by (auto; exact I). injection EP as _ <- <-. cbn [Ascii.eqb Bool.eqb andb].
      apply negb_true_iff, Nat.eqb_neq. destruct a; [congruence|discriminate].
    + cbn [append] in Ea. injection Ea as -> Er. rewrite Er in EP.
      change (String "." (digits_text b)) with ("." ++ digits_text b)%string in EP.
      rewrite span_digits_text in EP by (auto; reflexivity). injection EP as _ <- <-. cbn [append]. 
      rewrite <- (sapp_nil (digits_text b)). rewrite span_digits_text by (auto; exact I). cbn [Ascii.eqb Bool.eqb andb String.eqb].
      rewrite andb_true_r. apply negb_true_iff, Nat.eqb_neq. destruct b; [congruence|discriminate].
Qed.

(** ** Options *)
Lemma named_some : forall T s o, named T s = Some o -> In o T /\ o_name o = s.
Proof. intros T s o H. apply find_some in H. destruct H as [H1 H2]. apply String.eqb_eq in H2. auto. Qed.
Lemma named_none : forall T s, named T s = None <-> forall o, In o T -> o_name o <> s.
Proof.
  intros T s. split.
  - intros H o I E. pose proof (find_none _ _ H o I) as Q. cbn in Q. rewrite E, String.eqb_refl in Q. discriminate.
  - intros H. destruct (named T s) as [o|] eqn:E; [|reflexivity]. apply named_some in E. destruct E as [I E]. destruct (H o I E).
Qed.
Lemma same_name : forall T o o', NoDup (map o_name T) -> In o T -> In o' T -> o_name o = o_name o' -> o = o'.
Proof.
  induction T as [|x T IH]; intros o o' N I I' E; [destruct I|]. inversion N; subst.
  destruct I as [->|I], I' as [->|I']; auto.
  - exfalso. apply H1. rewrite E. apply in_map. exact I'.
  - exfalso. apply H1. rewrite <- E. apply in_map. exact I.
Qed.
Lemma named_in : forall T o, NoDup (map o_name T) -> In o T -> named T (o_name o) = Some o.
Proof.
  intros T o N I. destruct (named T (o_name o)) as [o'|] eqn:E.
  - apply named_some in E. destruct E as [I' E]. f_equal. exact (same_name T o' o N I' I E).
  - rewrite named_none in E. destruct (E o I eq_refl).
Qed.
Lemma filter_unique : forall (f : opt -> bool) T o, NoDup (map o_name T) -> In o T -> f o = true ->
  (forall o', In o' T -> f o' = true -> o' = o) -> filter f T = [o].
Proof.
  intros f T o. induction T as [|x T IH]; intros N I F U; [destruct I|]. inversion N; subst. cbn.
  destruct I as [->|I].
  - rewrite F. f_equal. assert (forall y, In y T -> f y = false).
    { intros y Iy. destruct (f y) eqn:Fy; [|reflexivity]. exfalso. pose proof (U y (or_intror Iy) Fy). subst y.
      apply H1. apply in_map. exact Iy. }
    clear -H. induction T as [|y T IH]; [reflexivity|]. cbn. rewrite (H y) by (left; reflexivity). apply IH. intros; apply H; right; assumption.
  - destruct (f x) eqn:Fx.
    + exfalso. pose proof (U x (or_introl eq_refl) Fx). subst x. apply H1. apply in_map. exact I.
    + apply IH; auto. intros; apply U; [right|]; assumption.
Qed.
Lemma starts_cons : forall c p s, starts (String c p) s -> exists r, s = String c r.
Proof. intros c p s [r ->]. eexists. reflexivity. Qed.
Lemma starts_trans : forall a b c, starts a b -> starts b c -> starts a c.
Proof. intros a b c [r ->] [q ->]. exists (r ++ q)%string. apply sapp_assoc. Qed.
Lemma starts_refl : forall s, starts s s.
Proof. intros s. exists ""%string. symmetry. apply sapp_nil. Qed.
Lemma starts_anti : forall a b, starts a b -> starts b a -> a = b.
Proof.
  intros a b [r ->] [q E]. rewrite sapp_assoc in E. rewrite <- (sapp_nil a) in E at 1. apply sapp_inj in E.
  destruct r; [symmetry; apply sapp_nil|discriminate].
Qed.
Lemma option_dash : forall T o, table_ok T -> In o T -> starts "-" (o_name o) /\ o_name o <> "-" /\ o_name o <> "--".
Proof.
  intros T o [_ [H _]] I. destruct (H o I) as [_ [_ [[c [r E]]|[E _]]]]; rewrite E; (split; [eexists; reflexivity|split; discriminate]).
Qed.
Lemma refers_plain : forall T p o, table_ok T -> refers T p o -> ~ has "=" p.
Proof. intros T p o K [I [->|[_ [N _]]]]; [|exact N]. apply (proj1 (proj1 (proj2 K) o I)). Qed.
Lemma refers_shape : forall T p o, table_ok T -> refers T p o -> (exists c r, p = String "-" (String "-" (String c r))) \/ (p = "-h" /\ p = o_name o /\ o_kind o = KHelp).
Proof.
  intros T p o K [I [->|[S [_ [_ U]]]]].
  - destruct (proj2 (proj2 (proj1 (proj2 K) o I))) as [H|[H1 H2]]; [left; exact H|right; auto].
  - left. destruct S as [r ->]. destruct r as [|c r]; [|eexists _, _; reflexivity].
    exfalso. destruct K as [_ [_ [_ [o1 [o2 [I1 [I2 [S1 [S2 N]]]]]]]]]. apply N. rewrite (U o1 I1 S1), (U o2 I2 S2). reflexivity.
Qed.
Lemma refers_unique : forall T p o, table_ok T -> refers T p o -> named T p = None -> filter (fun o => String.prefix p (o_name o)) T = [o].
Proof.
  intros T p o K [I [->|[_ [_ [S U]]]]] N.
  - rewrite named_in in N by (auto; apply K). discriminate.
  - apply filter_unique; [apply K|exact I|apply prefix_starts; exact S|]. intros o' I' F. apply U; [exact I'|]. apply prefix_starts. exact F.
Qed.
Lemma refers_named : forall T p o o', table_ok T -> refers T p o -> named T p = Some o' -> o' = o.
Proof.
  intros T p o o' K [I [->|[_ [_ [S U]]]]] N.
  - rewrite named_in in N by (auto; apply K). congruence.
  - apply named_some in N. destruct N as [I' N]. apply U; [exact I'|]. rewrite N. apply starts_refl.
Qed.
Lemma classify_word : forall T p o, table_ok T -> refers T p o -> classify T p = COpt o None false.
Proof.
  intros T p o K H. pose proof (refers_shape T p o K H) as [[c [r E]]|[E [E2 Hk]]].
  - rewrite E. cbn [classify Ascii.eqb Bool.eqb negb]. rewrite <- E. destruct (named T p) as [o'|] eqn:N.
    + rewrite (refers_named T p o o' K H N). reflexivity.
    + rewrite (partition_none p) by (eapply refers_plain; eauto). rewrite (refers_unique T p o K H N). reflexivity.
  - assert (N : named T p = Some o) by (rewrite E2; apply named_in; [apply K|apply H]).
    rewrite E in *. cbn [classify Ascii.eqb Bool.eqb negb]. rewrite N. reflexivity.
Qed.
Lemma eq_not_named : forall T p v, table_ok T -> named T (p ++ "=" ++ v) = None.
Proof.
  intros T p v K. apply named_none. intros o I E. apply (proj1 (proj1 (proj2 K) o I)). rewrite E. apply has_app. right. left. reflexivity.
Qed.
Lemma classify_joined : forall T p o v, table_ok T -> refers T p o -> classify T (p ++ "=" ++ v) = COpt o (Some v) false.
Proof.
  intros T p o v K H. pose proof (eq_not_named T p v K) as NN. pose proof (partition_some p v (refers_plain T p o K H)) as PP.
  pose proof (refers_shape T p o K H) as [[c [r E]]|[E [E2 Hk]]].
  - rewrite E in NN, PP |- *. cbn [classify append Ascii.eqb Bool.eqb negb] in *. rewrite NN, PP. rewrite <- E.
    destruct (named T p) as [o'|] eqn:N.
    + rewrite (refers_named T p o o' K H N). reflexivity.
    + rewrite (refers_unique T p o K H N). reflexivity.
  - assert (N : named T p = Some o) by (rewrite E2; apply named_in; [apply K|apply H]).
    rewrite E in NN, PP, N |- *. cbn [classify append Ascii.eqb Bool.eqb negb] in *. rewrite NN, PP, N. reflexivity.
Qed.
Lemma filter_nil : forall (f : opt -> bool) T, filter f T = [] <-> forall o, In o T -> f o = false.
Proof.
  induction T as [|x T IH]; cbn; [split; [intros _ o []|reflexivity]|]. destruct (f x) eqn:F.
  - split; [discriminate|]. intros H. rewrite (H x) in F by auto. discriminate.
  - rewrite IH. split; [intros H o [<-|I]; auto|intros H o I; apply H; auto].
Qed.
Lemma short_options : forall T c, table_ok T -> c <> "-"%char ->
  filter (fun o => String.eqb (o_name o) (String "-" (String c EmptyString))) T = [] <-> c <> "h"%char.
Proof.
  intros T c K Nc. rewrite filter_nil. split.
  - intros H ->. destruct (proj1 (proj2 (proj2 K))) as [o [I E]]. specialize (H o I). rewrite E in H. discriminate.
  - intros N o I. destruct (proj2 (proj2 (proj1 (proj2 K) o I))) as [[d [r E]]|[E _]]; rewrite E; apply String.eqb_neq; intros Q; [|congruence].
    discriminate.
Qed.
Lemma rest_arg : forall s, classify_rest s = CArg <-> minus_number s \/ has " " s.
Proof.
  intros s. unfold classify_rest. rewrite <- negative_spec, <- has_blank_spec.
  destruct (negative_number s), (has_blank s); split; auto; try discriminate. intros [H|H]; discriminate.
Qed.
Lemma rest_not_opt : forall s o e b, classify_rest s <> COpt o e b.
Proof. intros s o e b. unfold classify_rest. destruct (negative_number s), (has_blank s); discriminate. Qed.
Lemma rest_not_amb : forall s, classify_rest s <> CAmbiguous.
Proof. intros s. unfold classify_rest. destruct (negative_number s), (has_blank s); discriminate. Qed.
Lemma minus_shape : forall v, minus_number v -> exists c r, v = String "-" (String c r) /\ c <> "-"%char /\ c <> "h"%char.
Proof.
  intros v H. assert (D : forall d, (d < 10)%nat -> ascii_of_nat (48 + d) <> "-"%char /\ ascii_of_nat (48 + d) <> "h"%char).
  { intros d Hd. do 10 (destruct d as [|d]; [vm_compute; split; discriminate|]). lia. }
  destruct H as [[ds [Dd [N ->]]]|[a [b [Da [Db [N ->]]]]]].
  - destruct ds as [|d ds]; [congruence|]. inversion Dd; subst. eexists _, _. split; [reflexivity|]. apply D. assumption.
  - destruct a as [|d a]; [eexists _, _; split; [reflexivity|split; discriminate]|]. inversion Da; subst.
    eexists _, _. split; [reflexivity|]. apply D. assumption.
Qed.
Lemma classify_value : forall T s, table_ok T -> classify T s = CArg <-> as_value T s.
Proof.
  intros T s K. unfold as_value. destruct s as [|d r].
  { cbn. split; [intros _; left; intros [q E]; discriminate|reflexivity]. }
  cbn [classify]. destruct (Ascii.eqb_spec d "-") as [->|Nd].
  2:{ cbn [negb]. split; [intros _; left; intros [q E]; cbn in E; congruence|reflexivity]. }
  cbn [negb]. set (s := String "-" r). destruct (named T s) as [o|] eqn:N.
  { split; [discriminate|]. intros H. exfalso. apply named_some in N. destruct N as [I N].
    destruct (option_dash T o K I) as [S [N1 N2]]. rewrite N in S, N1.
    destruct H as [H|[H|[H|[H [Hh H3]]]]]; [exact (H S)|exact (N1 H)| |].
    - destruct (minus_shape s H) as [c [r' [E [C1 C2]]]].
      destruct (proj2 (proj2 (proj1 (proj2 K) o I))) as [[x [y E']]|[E' _]]; congruence.
    - rewrite <- N in H. exact (proj1 (proj2 (proj1 (proj2 K) o I)) H). }
  destruct r as [|c r']; [split; [intros _; right; left; reflexivity|reflexivity]|].
  assert (SS : starts "-" s) by (exists (String c r'); reflexivity).
  assert (S1 : s <> "-") by discriminate.
  pose proof (partition_spec s) as PS. destruct (partition_eq s) as [p e] eqn:EP. destruct PS as [PS1 PS2].
  destruct (Ascii.eqb_spec c "-") as [->|Nc].
  - (* two dashes *)
    assert (M : ~ minus_number s). { intros M. destruct (minus_shape s M) as [c [q [E [C _]]]]. unfold s in E. congruence. }
    assert (Hh : ~ starts "-h" s). { intros [q E]. unfold s in E. cbn in E. congruence. }
    assert (DD : starts "--" s) by (exists r'; reflexivity).
    assert (PU : forall p', ~ has "=" p' -> (s = p' \/ exists e', s = (p' ++ "=" ++ e')%string) -> p' = p).
    { intros p' Np [E|[e' E]]; rewrite E in EP.
      - rewrite partition_none in EP by exact Np. congruence.
      - rewrite partition_some in EP by exact Np. congruence. }
    assert (W : s = p \/ exists e', s = (p ++ "=" ++ e')%string) by (destruct e; eauto).
    assert (FF : filter (fun o => String.prefix p (o_name o)) T = [] <-> forall o, In o T -> ~ starts p (o_name o)).
    { rewrite filter_nil. split; intros H o I; specialize (H o I).
      - rewrite <- prefix_starts. congruence.
      - rewrite <- prefix_starts in H. destruct (String.prefix p (o_name o)); congruence. }
    assert (G : match filter (fun o => String.prefix p (o_name o)) T with
                | [] => classify_rest s | [o] => COpt o e false | _ => CAmbiguous end = CArg <->
                ~ starts "-" s \/ s = "-" \/ minus_number s \/ has " " s /\ ~ starts "-h" s /\
                (starts "--" s -> forall p0 o, In o T -> ~ has "=" p0 -> s = p0 \/ (exists e0, s = (p0 ++ "=" ++ e0)%string) -> ~ starts p0 (o_name o))).
    { destruct (filter _ T) as [|o [|o' L]] eqn:F.
      - rewrite rest_arg. split.
        + intros [H|H]; [tauto|]. right. right. right. split; [exact H|]. split; [exact Hh|].
          intros _ p0 o I Np E. rewrite (PU p0 Np E). apply (proj1 FF eq_refl o I).
        + tauto.
      - split; [discriminate|]. intros [H|[H|[H|[H [_ H3]]]]]; try tauto.
        exfalso. assert (I : In o (filter (fun o => String.prefix p (o_name o)) T)) by (rewrite F; left; reflexivity).
        apply filter_In in I. destruct I as [I P]. apply prefix_starts in P. exact (H3 DD p o I PS1 W P).
      - split; [discriminate|]. intros [H|[H|[H|[H [_ H3]]]]]; try tauto.
        exfalso. assert (I : In o (filter (fun o => String.prefix p (o_name o)) T)) by (rewrite F; left; reflexivity).
        apply filter_In in I. destruct I as [I P]. apply prefix_starts in P. exact (H3 DD p o I PS1 W P). }
    destruct e as [v|]; [destruct (named T p) as [o|] eqn:Np|]; try exact G.
    split; [discriminate|]. intros [H|[H|[H|[H [_ H3]]]]]; try tauto. exfalso.
    apply named_some in Np. destruct Np as [I Ep]. apply (H3 DD p o I PS1 W). rewrite Ep. apply starts_refl.
  - (* one dash *)
    assert (Np : match e, named T p with Some v, Some o => o_name o = "-h" /\ c = "h"%char | _, _ => True end).
    { destruct e as [v|]; [|exact I]. destruct (named T p) as [o|] eqn:Np; [|exact I]. apply named_some in Np. destruct Np as [Io Ep].
      destruct (proj2 (proj2 (proj1 (proj2 K) o Io))) as [[x [y E']]|[E' _]].
      - exfalso. unfold s in PS2. rewrite <- Ep, E' in PS2. cbn in PS2. congruence.
      - split; [exact E'|]. unfold s in PS2. rewrite <- Ep, E' in PS2. cbn in PS2. congruence. }
    assert (Hh : starts "-h" s <-> c = "h"%char).
    { split; [intros [q E]; unfold s in E; cbn in E; congruence|intros ->; exists r'; reflexivity]. }
    assert (DD : ~ starts "--" s) by (intros [q E]; unfold s in E; cbn in E; congruence).
    pose proof (short_options T c K Nc) as SO.
    assert (MH : minus_number s -> c <> "h"%char).
    { intros M. destruct (minus_shape s M) as [c' [q [E [_ C]]]]. unfold s in E. congruence. }
    assert (G : match filter (fun o => String.eqb (o_name o) (String "-" (String c EmptyString))) T with
                | [] => classify_rest s | o :: _ => COpt o (Some r') true end = CArg <->
                ~ starts "-" s \/ s = "-" \/ minus_number s \/ has " " s /\ ~ starts "-h" s /\
                (starts "--" s -> forall p0 o, In o T -> ~ has "=" p0 -> s = p0 \/ (exists e0, s = (p0 ++ "=" ++ e0)%string) -> ~ starts p0 (o_name o))).
    { destruct (filter _ T) as [|o L] eqn:F.
      - rewrite rest_arg. pose proof (proj1 SO eq_refl). tauto.
      - assert (c = "h"%char). { destruct (ascii_dec c "h"); [assumption|]. pose proof (proj2 SO n). discriminate. }
        split; [discriminate|]. tauto. }
    destruct e as [v|]; [destruct (named T p) as [o|] eqn:Np'|]; try exact G.
    split; [discriminate|]. tauto.
Qed.
Lemma classify_opt : forall T s o e b, table_ok T -> classify T s = COpt o e b ->
  (b = false /\ exists p, refers T p o /\ match e with None => s = p | Some v => s = (p ++ "=" ++ v)%string end) \/
  (b = true /\ e <> None /\ o_kind o = KHelp /\ starts "-h" s).
Proof.
  intros T s o e b K H. destruct s as [|d r]; [discriminate|]. cbn [classify] in H.
  destruct (Ascii.eqb_spec d "-") as [->|Nd]; [|discriminate]. cbn [negb] in H.
  set (s := String "-" r) in *. destruct (named T s) as [o'|] eqn:N.
  { injection H as <- <- <-. left. split; [reflexivity|]. exists s. split; [|reflexivity].
    apply named_some in N. split; [apply N|left; symmetry; apply N]. }
  destruct r as [|c r']; [discriminate|].
  pose proof (partition_spec s) as PS. destruct (partition_eq s) as [p e'] eqn:EP. destruct PS as [PS1 PS2].
  assert (G : (if Ascii.eqb c "-"
                  then match filter (fun o => String.prefix p (o_name o)) T with
                       | [] => classify_rest s
                       | [o] => COpt o e' false
                       | _ => CAmbiguous
                       end
                  else match filter (fun o => String.eqb (o_name o) (String "-" (String c EmptyString))) T with
                       | [] => classify_rest s
                       | o :: _ => COpt o (Some r') true
                       end) = COpt o e b ->
     (b = false /\ exists p, refers T p o /\ match e with None => s = p | Some v => s = (p ++ "=" ++ v)%string end) \/
     (b = true /\ e <> None /\ o_kind o = KHelp /\ starts "-h" s)).
  { clear H. intros H. destruct (Ascii.eqb_spec c "-") as [->|Nc].
    - destruct (filter _ T) as [|x [|y L]] eqn:F; [destruct (rest_not_opt _ _ _ _ H)| |discriminate].
      injection H as -> -> <-. left. split; [reflexivity|]. exists p. split; [|destruct e; exact PS2].
      assert (I : In o (filter (fun o => String.prefix p (o_name o)) T)) by (rewrite F; left; reflexivity).
      apply filter_In in I. destruct I as [I P]. apply prefix_starts in P. split; [exact I|]. right.
      split. { assert (D : exists q, s = String "-" (String "-" q)) by (eexists; reflexivity).
               destruct p as [|a [|a' p]].
               - destruct e; cbn in PS2; discriminate.
               - destruct e; cbn in PS2; [injection PS2 as _ Q; discriminate|discriminate].
               - exists p. destruct D as [q D]. destruct e; rewrite PS2 in D; cbn in D; injection D as -> -> _; reflexivity. }
      split; [exact PS1|]. split; [exact P|]. intros o' I' S'.
      assert (J : In o' (filter (fun o => String.prefix p (o_name o)) T)) by (apply filter_In; split; [exact I'|apply prefix_starts; exact S']).
      rewrite F in J. destruct J as [J|[]]. congruence.
    - destruct (filter _ T) as [|x L] eqn:F; [destruct (rest_not_opt _ _ _ _ H)|]. injection H as -> <- <-. right.
      split; [reflexivity|]. split; [discriminate|].
      assert (I : In o (filter (fun o => String.eqb (o_name o) (String "-" (String c EmptyString))) T)) by (rewrite F; left; reflexivity).
      apply filter_In in I. destruct I as [I P]. apply String.eqb_eq in P.
      destruct (proj2 (proj2 (proj1 (proj2 K) o I))) as [[x [y E]]|[E Hk]]; [congruence|]. split; [exact Hk|].
      rewrite E in P. injection P as <-. exists r'. reflexivity. }
  destruct e' as [v|]; [destruct (named T p) as [o'|] eqn:Np|]; try (apply G; exact H).
  injection H as <- <- <-. left. split; [reflexivity|]. exists p. split; [|exact PS2].
  apply named_some in Np. split; [apply Np|left; symmetry; apply Np].
Qed.

(** ** Values *)
Lemma checked_spec : forall X o s v, checked X o s = Some v <-> reads X o s v.
Proof.
  intros X o s v. unfold checked, reads, convert.
  assert (C : forall b, match o_choices o with None => Some b | Some l => if existsb (String.eqb s) l then Some b else None end = Some v
               <-> v = b /\ match o_choices o with None => True | Some l => In s l end).
  { intros b. destruct (o_choices o) as [l|].
    - destruct (existsb (String.eqb s) l) eqn:E.
      + apply existsb_exists in E. destruct E as [x [I Ex]]. apply String.eqb_eq in Ex. subst x.
        split; [intros H; injection H as <-; auto|intros [-> _]; reflexivity].
      + split; [discriminate|]. intros [_ I]. exfalso.
        assert (existsb (String.eqb s) l = true); [|congruence]. apply existsb_exists. exists s. split; [exact I|apply String.eqb_refl].
    - split; [intros H; injection H as <-; auto|intros [-> _]; reflexivity]. }
  destruct (o_type o).
  - apply C.
  - apply C.
  - destruct (read_int X s) as [z|] eqn:E.
    + apply read_int_spec in E. rewrite C. split.
      * intros [-> H]. split; [exists z; auto|exact H].
      * intros [[z' [E' ->]] H]. split; [|exact H]. apply read_int_spec in E, E'. congruence.
    + split; [discriminate|]. intros [[z' [E' ->]] _]. apply read_int_spec in E'. congruence.
  - destruct (read_float X s) as [z|] eqn:E.
    + apply read_float_spec in E. rewrite C. split.
      * intros [-> H]. split; [exists z; auto|exact H].
      * intros [[z' [E' ->]] H]. split; [|exact H]. apply read_float_spec in E, E'. congruence.
    + split; [discriminate|]. intros [[z' [E' ->]] _]. apply read_float_spec in E'. congruence.
Qed.
Lemma checked_all_spec : forall X o l vs, checked_all X o l = Some vs <-> Forall2 (reads X o) l vs.
Proof.
  induction l as [|s l IH]; intros vs; cbn.
  - split; [intros H; injection H as <-; constructor|intros H; inversion H; reflexivity].
  - destruct (checked X o s) as [v|] eqn:E.
    + apply checked_spec in E. destruct (checked_all X o l) as [ws|] eqn:E2.
      * split.
        -- intros H. injection H as <-. constructor; [exact E|]. apply IH. reflexivity.
        -- intros H. inversion H; subst. apply checked_spec in E, H2. apply IH in H4. congruence.
      * split; [discriminate|]. intros H. inversion H; subst. apply IH in H4. discriminate.
    + split; [discriminate|]. intros H. inversion H; subst. apply checked_spec in H2. congruence.
Qed.

(** ** The loop *)
Lemma arguments_length : forall l, (length (snd (arguments l)) <= length l)%nat.
Proof.
  induction l as [|[s [[| | |]|]] l IH]; cbn; try lia. destruct (arguments l); cbn in *. lia.
Qed.
Lemma consume_fuel : forall X n m l st, (length l <= n)%nat -> (length l <= m)%nat -> consume X n l st = consume X m l st.
Proof.
  intros X. induction n as [|n IH]; intros m l st Hn Hm.
  - destruct l; [|cbn in Hn; lia]. destruct m; reflexivity.
  - destruct l as [|[s k] r]; [destruct m; reflexivity|]. destruct m as [|m]; [cbn in Hm; lia|].
    assert (Q : forall r' st', (length r' <= length r)%nat -> consume X n r' st' = consume X m r' st').
    { intros. apply IH; cbn in *; lia. }
    cbn [consume]. destruct k as [[|o [e|] b| |]|]; try (apply Q; lia).
    + destruct (o_kind o); try reflexivity; (destruct (take X o [e] st); cbn; [apply Q; lia|reflexivity]).
    + destruct (o_kind o).
      * destruct r as [|[v [[| | |]|]] r']; try reflexivity. destruct (take X o [v] st); cbn [pbind]; [apply Q; cbn; lia|reflexivity].
      * pose proof (arguments_length r) as L. destruct (arguments r) as [vs r']. destruct vs; [reflexivity|].
        destruct (take _ _ _ _); cbn [pbind]; [apply Q; exact L|reflexivity].
      * destruct (take _ _ _ _); cbn [pbind]; [apply Q; lia|reflexivity].
      * destruct (take _ _ _ _); cbn [pbind]; [apply Q; lia|reflexivity].
Qed.
Lemma as_value_not_dashes : forall T, ~ as_value T "--".
Proof.
  intros T [H|[H|[H|[H _]]]].
  - apply H. exists "-". reflexivity.
  - discriminate.
  - destruct (minus_shape _ H) as [c [r [E [C _]]]]. congruence.
  - cbn in H. destruct H as [H|[H|[]]]; discriminate.
Qed.
Definition seen_as (T : list opt) (s : string) : string * option class := (s, Some (classify T s)).
Lemma pattern_cons : forall T s l, s <> "--" -> pattern T (s :: l) = seen_as T s :: pattern T l.
Proof. intros T s l N. cbn. rewrite (proj2 (String.eqb_neq _ _) N). reflexivity. Qed.
Lemma pattern_values : forall T vs l, table_ok T -> Forall (as_value T) vs -> pattern T (vs ++ l) = map (fun s => (s, Some CArg)) vs ++ pattern T l.
Proof.
  induction vs as [|v vs IH]; intros l K F; [reflexivity|]. inversion F; subst. cbn [app]. rewrite pattern_cons.
  - unfold seen_as. rewrite (proj2 (classify_value T v K) H1). cbn. rewrite IH by assumption. reflexivity.
  - intros ->. exact (as_value_not_dashes T H1).
Qed.
Lemma pattern_length : forall T l, length (pattern T l) = length l.
Proof. induction l as [|s l IH]; cbn; [reflexivity|]. destruct (String.eqb s "--"); cbn; [rewrite map_length; reflexivity|lia]. Qed.
Lemma arguments_values : forall vs l, (match l with (_, Some CArg) :: _ => False | _ => True end) ->
  arguments (map (fun s => (s, Some CArg)) vs ++ l) = (vs, l).
Proof.
  induction vs as [|v vs IH]; intros l H; cbn.
  - destruct l as [|[s [[| | |]|]] l]; try reflexivity. destruct H.
  - rewrite IH by exact H. reflexivity.
Qed.
Lemma word_not_dashes : forall T p o, table_ok T -> refers T p o -> p <> "--".
Proof. intros T p o K H ->. destruct (refers_shape T "--" o K H) as [[c [r E]]|[E _]]; discriminate. Qed.
Lemma joined_not_dashes : forall T p o v, table_ok T -> refers T p o -> (p ++ "=" ++ v)%string <> "--".
Proof. intros T p o v K H E. destruct (refers_shape T p o K H) as [[c [r ->]]|[-> _]]; cbn in E; discriminate. Qed.
(** the state after saying something *)
Definition say (st : pstate) (p : item * val) : pstate :=
  mkP ((o_dest (i_opt (fst p)), snd p) :: p_ns st) (o_name (i_opt (fst p)) :: p_seen st) (p_extras st).
(** what follows does not continue a list of values *)
Definition fresh (T : list opt) (l : list string) : Prop := match pattern T l with (_, Some CArg) :: _ => False | _ => True end.
Lemma take_meant : forall X T it v st, meant X T it v -> take X (i_opt it) (i_vals it) st = Parsed (say st (it, v)).
Proof.
  intros X T it v st [_ H]. unfold take, say. cbn. destruct (o_kind (i_opt it)); [| | |destruct H].
  - destruct H as [s [-> [_ R]]]. apply checked_spec in R. rewrite R. reflexivity.
  - destruct H as [_ [_ [vs [-> R]]]]. apply checked_all_spec in R. rewrite R. reflexivity.
  - destruct H as [_ [_ ->]]. reflexivity.
Qed.
Lemma consume_item : forall X T it v rest st n, table_ok T -> meant X T it v -> fresh T rest -> (length (words it ++ rest) <= n)%nat ->
  consume X n (pattern T (words it ++ rest)) st = consume X (length rest) (pattern T rest) (say st (it, v)).
Proof.
  intros X T it v rest st n K M F L. pose proof (take_meant X T it v st M) as TK. destruct M as [Rf M].
  destruct n as [|n]; [unfold words in L; destruct (i_joined it); cbn in L; lia|].
  assert (Q : forall m st', (length rest <= m)%nat -> consume X m (pattern T rest) st' = consume X (length rest) (pattern T rest) st').
  { intros. apply consume_fuel; rewrite pattern_length; lia. }
  unfold words in *. destruct (i_joined it) eqn:J.
  - assert (V : exists s, i_vals it = [s]).
    { destruct (o_kind (i_opt it)).
      - destruct M as [s [E _]]. eauto.
      - destruct M as [_ [E _]]. destruct (i_vals it) as [|s [|]]; try discriminate. eauto.
      - destruct M; congruence.
      - destruct M. }
    destruct V as [s V]. rewrite V in *. cbn [String.concat] in *. cbn [app] in *.
    rewrite pattern_cons by (eapply joined_not_dashes; eauto). unfold seen_as. rewrite (classify_joined T _ _ s K Rf).
    cbn [consume]. rewrite TK. cbn [length] in L. destruct (o_kind (i_opt it)); cbn [pbind]; try (apply Q; lia); [destruct M; congruence|destruct M].
  - cbn [app length] in L. rewrite app_length in L. cbn [app]. rewrite pattern_cons by (eapply word_not_dashes; eauto). unfold seen_as.
    rewrite (classify_word T _ _ K Rf). cbn [consume]. destruct (o_kind (i_opt it)).
    + destruct M as [s [V [A _]]]. rewrite V in *. specialize (A eq_refl). rewrite pattern_values by (auto).
      cbn [map app]. rewrite TK. cbn [pbind]. apply Q. cbn in L. lia.
    + destruct M as [Ne [A _]]. rewrite pattern_values by auto. rewrite arguments_values by exact F.
      destruct (i_vals it) as [|x xs]; [congruence|]. rewrite TK. cbn [pbind]. apply Q. cbn in L. lia.
    + destruct M as [_ [V _]]. rewrite V in *. cbn [app]. rewrite TK. cbn [pbind]. apply Q. cbn in L; lia.
    + destruct M.
Qed.
Lemma fresh_items : forall X T l, table_ok T -> Forall (fun p => meant X T (fst p) (snd p)) l -> fresh T (flat_map (fun p => words (fst p)) l).
Proof.
  intros X T l K F. destruct l as [|[it v] l]; [exact I|]. inversion F; subst. destruct H1 as [Rf _]. cbn [fst snd] in *.
  unfold fresh. cbn [flat_map]. unfold words. cbn [fst]. destruct (i_joined it); cbn [app].
  - rewrite pattern_cons by (eapply joined_not_dashes; eauto). unfold seen_as. erewrite classify_joined by eauto. exact I.
  - rewrite pattern_cons by (eapply word_not_dashes; eauto). unfold seen_as. erewrite classify_word by eauto. exact I.
Qed.
Lemma consume_items : forall X T l st n, table_ok T -> Forall (fun p => meant X T (fst p) (snd p)) l ->
  (length (flat_map (fun p => words (fst p)) l) <= n)%nat ->
  consume X n (pattern T (flat_map (fun p => words (fst p)) l)) st = Parsed (fold_left say l st).
Proof.
  induction l as [|[it v] l IH]; intros st n K F L; [destruct n; reflexivity|].
  inversion F; subst. cbn [fst snd] in *. cbn [flat_map fst] in *. rewrite (consume_item X T it v); auto.
  - cbn [fold_left]. apply IH; auto.
  - eapply fresh_items; eauto.
Qed.
Lemma no_ambiguous : forall X T l, table_ok T -> Forall (fun p => meant X T (fst p) (snd p)) l ->
  existsb (fun p => match snd p with Some CAmbiguous => true | _ => false end) (pattern T (flat_map (fun p => words (fst p)) l)) = false.
Proof.
  intros X T. induction l as [|[it v] l IH]; intros K F; [reflexivity|].
  inversion F; subst. cbn [fst snd] in *. cbn [flat_map fst]. destruct H1 as [Rf M]. unfold words. destruct (i_joined it) eqn:J; cbn [app].
  - rewrite pattern_cons by (eapply joined_not_dashes; eauto). unfold seen_as. erewrite classify_joined by eauto. cbn. apply IH; auto.
  - rewrite pattern_cons by (eapply word_not_dashes; eauto). unfold seen_as. erewrite classify_word by eauto. cbn [existsb snd orb].
    assert (V : Forall (as_value T) (i_vals it)).
    { destruct (o_kind (i_opt it)).
      - destruct M as [s [-> [A _]]]. constructor; auto.
      - destruct M as [_ [A _]]. exact A.
      - destruct M as [_ [-> _]]. constructor.
      - destruct M. }
    rewrite pattern_values by auto. rewrite existsb_app. apply orb_false_iff. split; [|apply IH; auto].
    clear. induction (i_vals it); [reflexivity|]. cbn. exact IHl.
Qed.

(** backwards *)
Lemma consume_extras : forall X n l st st', consume X n l st = Parsed st' -> exists e, p_extras st' = p_extras st ++ e.
Proof.
  intros X. assert (TK : forall o l st st', take X o l st = Parsed st' -> p_extras st' = p_extras st).
  { intros o l st st' H. unfold take in H. destruct (o_kind o).
    - destruct l as [|s [|]]; try discriminate. destruct (checked X o s); [injection H as <-; reflexivity|discriminate].
    - destruct (checked_all X o l); [injection H as <-; reflexivity|discriminate].
    - injection H as <-. reflexivity.
    - discriminate. }
  induction n as [|n IH]; intros l st st' H.
  - destruct l; [|discriminate]. injection H as <-. exists []. symmetry. apply app_nil_r.
  - destruct l as [|[s k] r]; [injection H as <-; exists []; symmetry; apply app_nil_r|]. cbn [consume] in H.
    assert (Q : forall o l r, pbind (take X o l st) (consume X n r) = Parsed st' -> exists e, p_extras st' = p_extras st ++ e).
    { intros o l r' E. destruct (take X o l st) as [st1|] eqn:E1; [|discriminate]. cbn in E. apply TK in E1. rewrite <- E1. eapply IH; eauto. }
    destruct k as [[|o [e|] b| |]|].
    + apply IH in H. destruct H as [e H]. cbn in H. exists (s :: e). rewrite H, <- app_assoc. reflexivity.
    + destruct (o_kind o); try discriminate; eapply Q; eauto.
    + destruct (o_kind o).
      * destruct r as [|[v [[| | |]|]] r']; try discriminate. eapply Q; eauto.
      * destruct (arguments r) as [vs r']. destruct vs; [discriminate|]. eapply Q; eauto.
      * eapply Q; eauto.
      * eapply Q; eauto.
    + apply IH in H. destruct H as [e H]. cbn in H. exists (s :: e). rewrite H, <- app_assoc. reflexivity.
    + apply IH in H. destruct H as [e H]. cbn in H. exists (s :: e). rewrite H, <- app_assoc. reflexivity.
    + apply IH in H. destruct H as [e H]. cbn in H. exists (s :: e). rewrite H, <- app_assoc. reflexivity.
Qed.
Lemma arguments_pattern : forall T l vs r, table_ok T -> arguments (pattern T l) = (vs, r) ->
  exists l', l = vs ++ l' /\ Forall (as_value T) vs /\ r = pattern T l'.
Proof.
  intros T. induction l as [|s l IH]; intros vs r K H.
  - injection H as <- <-. exists []. repeat split; constructor.
  - cbn [pattern] in H. destruct (String.eqb_spec s "--") as [->|N].
    + cbn in H. injection H as <- <-. exists ("--" :: l). repeat split. constructor.
    + cbn [arguments] in H. destruct (classify T s) eqn:C.
      * destruct (arguments (pattern T l)) as [a t]. injection H as <- <-. destruct (IH a t K eq_refl) as [l' [-> [F ->]]].
        exists l'. repeat split. constructor; [apply classify_value; assumption|exact F].
      * injection H as <- <-. exists (s :: l). rewrite pattern_cons by exact N. unfold seen_as. rewrite C. repeat split. constructor.
      * injection H as <- <-. exists (s :: l). rewrite pattern_cons by exact N. unfold seen_as. rewrite C. repeat split. constructor.
      * injection H as <- <-. exists (s :: l). rewrite pattern_cons by exact N. unfold seen_as. rewrite C. repeat split. constructor.
Qed.
Lemma consume_inv : forall X T n argv st st', table_ok T -> consume X n (pattern T argv) st = Parsed st' -> p_extras st' = [] ->
  exists l, argv = flat_map (fun p => words (fst p)) l /\ Forall (fun p => meant X T (fst p) (snd p)) l /\ st' = fold_left say l st.
Proof.
  intros X T. induction n as [|n IH]; intros argv st st' K H E.
  - destruct argv as [|s argv]; [|exfalso; cbn in H; destruct (String.eqb s "--"); discriminate].
    injection H as <-. exists []. repeat split. constructor.
  - destruct argv as [|s argv]; [injection H as <-; exists []; repeat split; constructor|].
    assert (X0 : forall r s', consume X n r (extra s' st) = Parsed st' -> False).
    { intros r s' Q. apply consume_extras in Q. destruct Q as [e Q]. rewrite E in Q. cbn in Q. destruct (p_extras st); discriminate. }
    cbn [pattern] in H. destruct (String.eqb_spec s "--") as [->|N]; [cbn [consume] in H; destruct (X0 _ _ H)|].
    cbn [consume] in H. destruct (classify T s) as [|o [e|] b| |] eqn:C; try (destruct (X0 _ _ H)).
    + (* joined *)
      destruct (classify_opt T s o _ b K C) as [[-> [p [Rf ->]]]|[-> [_ [Hk _]]]]; [|rewrite Hk in H; discriminate].
      assert (G : (o_kind o = KOne \/ o_kind o = KMany) -> pbind (take X o [e] st) (consume X n (pattern T argv)) = Parsed st' ->
        exists l, (p ++ "=" ++ e)%string :: argv = flat_map (fun p => words (fst p)) l /\ Forall (fun p => meant X T (fst p) (snd p)) l /\ st' = fold_left say l st).
      { intros Hk Q. destruct (take X o [e] st) as [st1|] eqn:T1; [|discriminate]. cbn [pbind] in Q.
        assert (M : exists v, meant X T (mkItem o p true [e]) v /\ st1 = say st (mkItem o p true [e], v)).
        { unfold take in T1. unfold meant. cbn. destruct Hk as [Hk|Hk]; rewrite Hk in *.
          - destruct (checked X o e) as [v|] eqn:V; [|discriminate]. injection T1 as <-. exists v. split; [|reflexivity].
            split; [exact Rf|]. exists e. split; [reflexivity|]. split; [discriminate|]. apply checked_spec. exact V.
          - destruct (checked_all X o [e]) as [v|] eqn:V; [|discriminate]. injection T1 as <-. exists (VList v). split; [|reflexivity].
            split; [exact Rf|]. split; [discriminate|]. split; [reflexivity|]. exists v. split; [reflexivity|]. apply checked_all_spec. exact V. }
        destruct M as [v [M ->]]. destruct (IH _ _ _ K Q E) as [l [-> [F ->]]]. exists ((mkItem o p true [e], v) :: l).
        split; [reflexivity|]. split; [constructor; assumption|reflexivity]. }
      destruct (o_kind o) eqn:Hk; try discriminate; apply G; auto.
    + destruct (classify_opt T s o _ b K C) as [[-> [p [Rf Es]]]|[_ [Ne _]]]; [|congruence]. subst p.
      destruct (o_kind o) eqn:Hk.
      * destruct argv as [|a argv]; [discriminate|]. cbn [pattern] in H. destruct (String.eqb_spec a "--") as [->|Na]; [discriminate|].
        destruct (classify T a) eqn:Ca; try discriminate. destruct (take X o [a] st) as [st1|] eqn:T1; [|discriminate]. cbn [pbind] in H.
        unfold take in T1. rewrite Hk in T1. destruct (checked X o a) as [v|] eqn:V; [|discriminate]. injection T1 as <-.
        destruct (IH _ _ _ K H E) as [l [-> [F ->]]]. exists ((mkItem o s false [a], v) :: l). split; [reflexivity|].
        split; [|reflexivity]. constructor; [|exact F]. split; [exact Rf|]. cbn. rewrite Hk. exists a. split; [reflexivity|].
        split; [intros _; apply classify_value; assumption|apply checked_spec; exact V].
      * destruct (arguments (pattern T argv)) as [vs r] eqn:A. destruct (arguments_pattern T argv vs r K A) as [l' [-> [Fv ->]]].
        destruct vs as [|a vs]; [discriminate|]. destruct (take X o (a :: vs) st) as [st1|] eqn:T1; [|discriminate]. cbn [pbind] in H.
        unfold take in T1. rewrite Hk in T1. destruct (checked_all X o (a :: vs)) as [v|] eqn:V; [|discriminate]. injection T1 as <-.
        destruct (IH _ _ _ K H E) as [l [-> [F ->]]]. exists ((mkItem o s false (a :: vs), VList v) :: l). split; [reflexivity|].
        split; [|reflexivity]. constructor; [|exact F]. split; [exact Rf|]. cbn. rewrite Hk. split; [discriminate|]. split; [exact Fv|].
        exists v. split; [reflexivity|]. apply checked_all_spec. exact V.
      * destruct (take X o [] st) as [st1|] eqn:T1; [|discriminate]. cbn [pbind] in H. unfold take in T1. rewrite Hk in T1. injection T1 as <-.
        destruct (IH _ _ _ K H E) as [l [-> [F ->]]]. exists ((mkItem o s false [], VBool b) :: l). split; [reflexivity|].
        split; [|reflexivity]. constructor; [|exact F]. split; [exact Rf|]. cbn. rewrite Hk. auto.
      * unfold take in H. rewrite Hk in H. discriminate.
Qed.
