(** C78: the walls that a simulation uses. *)
From Coq Require Import Reals List ZArith Lia Lra Psatz.
From Verif Require Import Prelude AcousticModel IsmModel StageSpec StageProps WallSpec.
Import ListNotations.
Open Scope R_scope.

Lemma same_walls r r' : r_size r = r_size r' -> r_fs r = r_fs r' -> r_c r = r_c r' -> resolve_beta r = resolve_beta r' ->
  same_simulations r r'.
Proof.
  destruct r as [sz fs c b t], r' as [sz' fs' c' b' t']. cbn [r_size r_fs r_c]. intros -> -> -> E. split; intros.
  - unfold simulate_rir. rewrite E. reflexivity.
  - unfold simulate_dynamic_rir. rewrite E. reflexivity.
Qed.
(** Given coefficients are used, whatever else the room says. *)
Theorem C78_given r b : r_beta r = Some b -> same_simulations r (with_walls r b).
Proof. intros E. apply same_walls; auto. unfold resolve_beta. rewrite E. reflexivity. Qed.
(** A reverberation time stands for equal walls whose absorption is that of Sabine's formula,
    at most 0.999. *)
Theorem C78_reverberation_time r t : r_beta r = None -> r_t60 r = Some t -> size_ok (r_size r) -> 0 < t ->
  exists b, 0 < b < 1 /\ 1 - b ^ 2 = Rmin (sabine (data (r_size r)) t) 0.999 /\
    same_simulations r (with_walls r (repeat b (2 * length (data (r_size r))))).
Proof.
  intros Eb Et S T. destruct (C34_uniform_beta (r_size r) t S T) as (b & E & B & A). exists b. split; [auto|]. split; [auto|].
  apply same_walls; auto. unfold resolve_beta. rewrite Eb, Et. exact E.
Qed.
(** Without either the walls are rigid. *)
Theorem C78_nothing_given r : r_beta r = None -> r_t60 r = None -> size_ok (r_size r) ->
  same_simulations r (with_walls r (repeat 1 (2 * length (data (r_size r))))).
Proof.
  intros Eb Et (d & S & D & L & _). apply same_walls; auto. unfold resolve_beta. rewrite Eb, Et. cbn [r_beta with_walls].
  rewrite L. unfold numel. rewrite S. destruct D as [-> | ->]; reflexivity.
Qed.

(** A square room of 4 m by 4 m: 0.161 * 16 / 16 / 0.75 seconds mean walls of coefficient 1/2. *)
Example C78_ex : let size := mkT [2%nat] [4; 4] in
  same_simulations (mkRoom size 16000 343 None (Some (0.161 / 0.75))) (mkRoom size 16000 343 (Some [/2; /2; /2; /2]) None).
Proof.
  intros size. destruct (C78_reverberation_time (mkRoom size 16000 343 None (Some (0.161 / 0.75))) (0.161 / 0.75)) as (b & B & E & H); auto.
  - exists 2%nat. cbn. repeat split; auto. repeat constructor; lra.
  - lra.
  - assert (Q : sabine (data size) (0.161 / 0.75) = 0.75) by (unfold sabine, volume, surface; cbn; field; lra).
    cbn [r_size] in E. rewrite Q, Rmin_left in E by lra. assert (Hb : b = /2) by nra. subst b. exact H.
Qed.
(** Given walls of a room that also names a reverberation time; a room that names neither. *)
Example C78_ex_given : let size := mkT [2%nat] [4; 4] in
  same_simulations (mkRoom size 16000 343 (Some [0; 1; /2; /3]) (Some 7)) (mkRoom size 16000 343 (Some [0; 1; /2; /3]) None) /\
  same_simulations (mkRoom size 16000 343 None None) (mkRoom size 16000 343 (Some [1; 1; 1; 1]) None).
Proof.
  intros size. split; [apply (C78_given (mkRoom size 16000 343 (Some [0; 1; /2; /3]) (Some 7))); auto|].
  apply (C78_nothing_given (mkRoom size 16000 343 None None)); auto. exists 2%nat. cbn. repeat split; auto. repeat constructor; lra.
Qed.

Print Assumptions C78_given.
Print Assumptions C78_reverberation_time.
Print Assumptions C78_nothing_given.
