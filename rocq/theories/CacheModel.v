(** Model of the module caches of /repo/src/torchrir/sim/ism/accumulate.py and of the
    accumulation as it runs on top of them.

    [AccumModel.v] models one accumulation with freshly computed tables.  Here the tables
    come from the caches, so that stale or mis-keyed entries would be visible: a cached
    tensor carries its device and dtype, and its values depend on the dtype through the
    rounding [rd].  Cached tensors are never written to (accumulate.py:50-94 only reads
    them), so they are modelled as values.  [torch.compile] is taken to preserve the
    meaning of the function it wraps. *)
From Coq Require Import String List ZArith Reals Bool.
From Verif Require Import Prelude SignalModel DirModel AccumModel IsmModel.
Import ListNotations.
Local Open Scope R_scope.

(** A device: its type and its string, [str(device)] (accumulate.py:118, 128, 137, 147, 159). *)
Record device := mkDev { dev_type : device_type; dev_str : string }.

(** A tensor held by a cache: where it lives, its dtype and its values, sim/ism/accumulate.py:12-17, 127-168. *)
Record cached (A : Type) := mkCached { ct_dev : string; ct_dtype : string; ct_vals : list A }.
Arguments mkCached {A}.
Arguments ct_dev {A}.
Arguments ct_dtype {A}.
Arguments ct_vals {A}.

(** Constants bound by [_fn], accumulate.py:101-115. *)
Record bound := mkBound { b_fdl : nat; b_gran : nat; b_lut : bool; b_chunk : nat }.

(** The module dictionaries, accumulate.py:12-17. *)
Record caches := mkCaches {
  k_lut : list ((nat * nat * string * string) * cached R);
  k_grid : list ((nat * string * string) * cached R);
  k_offs : list ((nat * string) * cached Z);
  k_win : list ((nat * string * string) * cached R);
  k_fn : list ((string * string * nat * nat * bool * nat) * bound) }.
(** State at import time, accumulate.py:12-17. *)
Definition no_caches : caches := mkCaches [] [] [] [] [].

(** Equality of tuple keys, sim/ism/accumulate.py:128-129, 147-148. *)
Definition eq_nss (a b : nat * string * string) : bool :=
  let '(n, s, t) := a in let '(n', s', t') := b in
  (Nat.eqb n n' && String.eqb s s' && String.eqb t t')%bool.
(** sim/ism/accumulate.py:137-138. *)
Definition eq_ns (a b : nat * string) : bool :=
  let '(n, s) := a in let '(n', s') := b in (Nat.eqb n n' && String.eqb s s')%bool.
(** sim/ism/accumulate.py:159-160. *)
Definition eq_nnss (a b : nat * nat * string * string) : bool :=
  let '(n, m, s, t) := a in let '(n', m', s', t') := b in
  (Nat.eqb n n' && Nat.eqb m m' && String.eqb s s' && String.eqb t t')%bool.
(** sim/ism/accumulate.py:117-124. *)
Definition eq_fn (a b : string * string * nat * nat * bool * nat) : bool :=
  let '(s, t, n, m, u, c) := a in let '(s', t', n', m', u', c') := b in
  (String.eqb s s' && String.eqb t t' && Nat.eqb n n' && Nat.eqb m m' && Bool.eqb u u' &&
   Nat.eqb c c')%bool.

(** [cached = CACHE.get(key); if cached is None: cached = ...; CACHE[key] = cached],
    the common pattern of accumulate.py:118-124, 128-133, 137-143, 147-152, 159-168. *)
Definition serve {K V} (eqb : K -> K -> bool) (k : K) (fresh : V) (c : list (K * V))
  : V * list (K * V) :=
  match find (fun p => eqb k (fst p)) c with
  | Some p => (snd p, c)
  | None => (fresh, (k, fresh) :: c)
  end.

Section Rounded.
(** Rounding of table values to a dtype, named by its string. *)
Variable rd : string -> R -> R.

(** [torch.arange(fdl, device=device, dtype=dtype)], accumulate.py:131. *)
Definition fresh_grid (fdl : nat) (d : device) (t : string) : cached R :=
  mkCached (dev_str d) t (map (rd t) (fdl_grid fdl)).
(** accumulate.py:140-141; the dtype is always int64. *)
Definition fresh_offsets (fdl : nat) (d : device) : cached Z :=
  mkCached (dev_str d) "int64" (fdl_offsets fdl).
(** accumulate.py:150. *)
Definition fresh_window (fdl : nat) (d : device) (t : string) : cached R :=
  mkCached (dev_str d) t (map (rd t) (fdl_window fdl)).
(** accumulate.py:163-166. *)
Definition fresh_lut (fdl gran : nat) (d : device) (t : string) : cached R :=
  mkCached (dev_str d) t (map (rd t) (sinc_lut fdl gran)).

(** [_get_fdl_grid], accumulate.py:127-133. *)
Definition get_grid (fdl : nat) (d : device) (t : string) (k : caches) : cached R * caches :=
  let (v, c) := serve eq_nss (fdl, dev_str d, t) (fresh_grid fdl d t) (k_grid k) in
  (v, mkCaches (k_lut k) c (k_offs k) (k_win k) (k_fn k)).
(** [_get_fdl_offsets], accumulate.py:136-143. *)
Definition get_offsets (fdl : nat) (d : device) (k : caches) : cached Z * caches :=
  let (v, c) := serve eq_ns (fdl, dev_str d) (fresh_offsets fdl d) (k_offs k) in
  (v, mkCaches (k_lut k) (k_grid k) c (k_win k) (k_fn k)).
(** [_get_fdl_window], accumulate.py:146-152. *)
Definition get_window (fdl : nat) (d : device) (t : string) (k : caches) : cached R * caches :=
  let (v, c) := serve eq_nss (fdl, dev_str d, t) (fresh_window fdl d t) (k_win k) in
  (v, mkCaches (k_lut k) (k_grid k) (k_offs k) c (k_fn k)).
(** [_get_sinc_lut], accumulate.py:155-168. *)
Definition get_lut (fdl gran : nat) (d : device) (t : string) (k : caches) : cached R * caches :=
  let (v, c) := serve eq_nnss (fdl, gran, dev_str d, t) (fresh_lut fdl gran d t) (k_lut k) in
  (v, mkCaches c (k_grid k) (k_offs k) (k_win k) (k_fn k)).

(** Constants bound from the configuration, accumulate.py:101-104. *)
Definition bind_config (c : config) (d : device) : bound :=
  mkBound (Z.to_nat (cfg_fdl c)) (Z.to_nat (cfg_gran c))
    (lut_enabled (cfg_use_lut c) (dev_type d)) (Z.to_nat (cfg_acc_chunk c)).
(** [device.type not in ("cuda", "mps") or not cfg.use_compile], accumulate.py:117. *)
Definition compiles (c : config) (d : device) : bool :=
  cfg_use_compile c && match dev_type d with Cpu => false | _ => true end.
(** [_get_accumulate_fn], accumulate.py:97-124. *)
Definition get_fn (c : config) (d : device) (t : string) (k : caches) : bound * caches :=
  let b := bind_config c d in
  if negb (compiles c d) then (b, k)
  else
    let (v, fs) := serve eq_fn (dev_str d, t, b_fdl b, b_gran b, b_lut b, b_chunk b) b (k_fn k) in
    (v, mkCaches (k_lut k) (k_grid k) (k_offs k) (k_win k) fs).

(** Filter tap [i] computed from the tables, accumulate.py:69-83. *)
Definition tap_from (t : string) (grid win : list R) (lut : option (list R)) (fdl gran : nat)
    (frac : R) (i : nat) : result R :=
  let w := nth i win 0 in
  match lut with
  | Some l =>
      let x_off_frac := rd t (rd t (1 - frac) * INR gran) in
      let off := floorZ x_off_frac in
      let x_off := rd t (x_off_frac - IZR off) in
      let lut_pos := (off + truncZ (nth i grid 0%R) * Z.of_nat gran)%Z in
      do s0 <- take l lut_pos;
      do s1 <- take l (lut_pos + 1);
      Ok ((s0 + x_off * (s1 - s0)) * w)
  | None => Ok (sinc (nth i grid 0 - INR (half fdl) - frac) * w)
  end.

(** accumulate.py:39-40, 85-93 for one image with the tables given. *)
Definition updates_from (t : string) (grid win : list R) (offs : list Z) (lut : option (list R))
    (fdl gran nsample sm : nat) (sample : R) (amp : xr) : result (list (Z * xr)) :=
  let idx := floorZ sample in
  let frac := rd t (sample - IZR idx) in
  do filt <- mapM (tap_from t grid win lut fdl gran frac) (seq 0 (List.length grid));
  let targets := map (fun o => (idx + o)%Z) offs in
  let pairs := combine targets (map (fun f => xscale f amp) filt) in
  let valid := filter (fun p => (0 <=? fst p) && (fst p <? Z.of_nat nsample))%Z pairs in
  Ok (map (fun p => ((fst p + Z.of_nat sm * Z.of_nat nsample)%Z, snd p)) valid).

(** One call of the accumulation: configuration, device, dtypes of [sample] and
    [amplitude], buffer and inputs (accumulate.py:20-25). *)
Record call := mkCall {
  a_cfg : config; a_dev : device; a_sdtype : string; a_adtype : string;
  a_sm : nat; a_nsample : nat; a_rir : list xr; a_sample : list R; a_amp : list xr }.

(** The chunk loop with given tables, accumulate.py:55-94.  Tensors on another device, of
    another dtype or of mismatching lengths raise. *)
Definition loop_from (a : call) (b : bound) (grid win : cached R) (offs : cached Z)
    (lut : option (cached R)) : result (list xr) :=
  let d := dev_str (a_dev a) in
  let t := a_sdtype a in
  let here {A} (c : cached A) := String.eqb (ct_dev c) d in
  let n := List.length (ct_vals grid) in
  if negb (here grid && here win && here offs && match lut with Some l => here l | None => true end
           && String.eqb (ct_dtype grid) t && String.eqb (ct_dtype win) t
           && match lut with Some l => String.eqb (ct_dtype l) t | None => true end
           && Nat.eqb (List.length (ct_vals win)) n && Nat.eqb (List.length (ct_vals offs)) n)%bool
  then Err RuntimeError
  else
    let n_img := (List.length (a_sample a) / a_sm a)%nat in
    let amp_cols := (List.length (a_amp a) / a_sm a)%nat in
    foldM (fun buf start =>
      let stop := Nat.min (start + b_chunk b) n_img in
      do upds <- mapM (fun sm =>
        do us <- mapM (fun i =>
            updates_from t (ct_vals grid) (ct_vals win) (ct_vals offs)
              (option_map ct_vals lut) (b_fdl b) (b_gran b) (a_nsample a) sm
              (nth (sm * n_img + i) (a_sample a) 0) (nth (sm * amp_cols + i) (a_amp a) None))
          (seq start (stop - start));
        Ok (concat us)) (seq 0 (a_sm a));
      scatter_add buf (concat upds))
      (py_range_step n_img (b_chunk b)) (a_rir a).

(** [_accumulate_rir_batch] with the caches, accumulate.py:20-56; the result and the
    caches afterwards.  [view(n_sm, -1)] (accumulate.py:44) raises before any table is
    fetched when there is no row. *)
Definition accumulate_cached (a : call) (k : caches) : result (list xr) * caches :=
  let (b, k) := get_fn (a_cfg a) (a_dev a) (a_adtype a) k in
  if (a_sm a =? 0)%nat then (Err RuntimeError, k)
  else
    let (grid, k) := get_grid (b_fdl b) (a_dev a) (a_sdtype a) k in
    let (offs, k) := get_offsets (b_fdl b) (a_dev a) k in
    let (win, k) := get_window (b_fdl b) (a_dev a) (a_sdtype a) k in
    if b_lut b then
      let (lut, k) := get_lut (b_fdl b) (b_gran b) (a_dev a) (a_sdtype a) k in
      (loop_from a b grid win offs (Some lut), k)
    else (loop_from a b grid win offs None, k).

(** Caches after a history of calls, sim/ism/accumulate.py:20-168. *)
Definition after (h : list call) (k : caches) : caches :=
  fold_left (fun k a => snd (accumulate_cached a k)) h k.

End Rounded.
