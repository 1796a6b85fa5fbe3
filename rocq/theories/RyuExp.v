(** Facts about the tables and about every exponent, by computation. *)
From Coq Require Import Lia.
From Verif Require Import Base ScanModel IntModel DoubleModel RyuTable RyuModel RyuMul RyuCore.
Local Open Scope N_scope.

(** ** The arithmetic of the model, with shifts in place of divisions *)
Definition quotient_pow2 (num k : Z) : N :=
  (let den := 2 ^ k in
   let e0 := Z.log2 num - k in
   let below := if 0 <=? e0 then num <? den * 2 ^ e0 else num * 2 ^ (- e0) <? den in
   let e := if below then e0 - 1 else e0 in
   let n := if e <=? 52 then num * 2 ^ (52 - e) else num in
   let j := if e <=? 52 then k else k + (e - 52) in
   let q := Z.shiftr n j in
   let r := Z.land n (Z.ones j) in
   let d := 2 ^ j in
   let up := (d <? 2 * r) || ((2 * r =? d) && Z.odd q) in
   Z.to_N ((e + 1023) * 2 ^ 52 + (q - 2 ^ 52) + (if up then 1 else 0)))%Z.

Lemma quotient_pow2_eq num k : (0 <= k)%Z -> ieee_quotient num (2 ^ k) = quotient_pow2 num k.
Proof.
  intros Hk. unfold ieee_quotient, quotient_pow2. rewrite Z.log2_pow2 by exact Hk. cbv zeta.
  set (e := (if (if 0 <=? Z.log2 num - k then num <? 2 ^ k * 2 ^ (Z.log2 num - k) else num * 2 ^ (- (Z.log2 num - k)) <? 2 ^ k) then Z.log2 num - k - 1 else Z.log2 num - k)%Z).
  set (j := (if (e <=? 52)%Z then k else (k + (e - 52))%Z)).
  assert (Hj : (0 <= j)%Z) by (unfold j; destruct (Z.leb_spec e 52); lia).
  assert (E : (if (e <=? 52)%Z then (2 ^ k)%Z else (2 ^ k * 2 ^ (e - 52))%Z) = (2 ^ j)%Z).
  { unfold j. destruct (Z.leb_spec e 52); [reflexivity|]. rewrite Z.pow_add_r by lia. reflexivity. }
  rewrite E. rewrite Z.shiftr_div_pow2, Z.land_ones by exact Hj. reflexivity.
Qed.

Definition unpack_fast (d : N) : Z * Z := (2 ^ 52 + Z.land (Z.of_N d) (Z.ones 52), 1075 - Z.shiftr (Z.of_N d) 52)%Z.
Definition times_fast (n m k : Z) : Z * Z := if (n =? 0)%Z then (0, 0)%Z else unpack_fast (quotient_pow2 (n * m) k).
Definition trunc_fast (x : Z * Z) : Z := let '(m, k) := x in Z.shiftr m k.
Definition ceil_fast (x : Z * Z) : Z := let '(m, k) := x in (- Z.shiftr (- m) k)%Z.

Lemma unpack_fast_eq d : unpack d = unpack_fast d.
Proof. unfold unpack, unpack_fast. rewrite Z.land_ones, Z.shiftr_div_pow2 by discriminate. reflexivity. Qed.

Lemma times_fast_eq n d m k : unpack d = (m, k) -> (0 <= k)%Z -> int_times n d = times_fast n m k.
Proof. intros E Hk. unfold int_times, times_fast. rewrite E, quotient_pow2_eq, unpack_fast_eq by exact Hk. reflexivity. Qed.

Definition small_exponent (x : Z * Z) : bool := (0 <=? snd x)%Z.
Lemma trunc_fast_eq x : small_exponent x = true -> trunc x = trunc_fast x.
Proof. destruct x as [m k]. unfold small_exponent. cbn [snd]. intros H. apply Z.leb_le in H. unfold trunc, trunc_fast. rewrite Z.shiftr_div_pow2 by exact H. reflexivity. Qed.
Lemma ceil_fast_eq x : small_exponent x = true -> ceil x = ceil_fast x.
Proof. destruct x as [m k]. unfold small_exponent. cbn [snd]. intros H. apply Z.leb_le in H. unfold ceil, ceil_fast. rewrite Z.shiftr_div_pow2 by exact H. reflexivity. Qed.

(** ** The entries are rounded powers of five *)
Fixpoint check_entries (f : Z -> N -> N -> bool) (i : Z) (p : N) (l : list (list N)) : bool :=
  match l with [] => true | ws :: r => f i p (wval ws) && check_entries f (i + 1)%Z (p * 5) r end.

Lemma check_entries_nth f : forall l i p, check_entries f i p l = true ->
  forall j ws, nth_error l j = Some ws -> f (i + Z.of_nat j)%Z (p * 5 ^ N.of_nat j) (wval ws) = true.
Proof.
  induction l as [|x r IH]; intros i p H j ws Hj; [destruct j; discriminate Hj|]. cbn [check_entries] in H.
  apply andb_prop in H. destruct H as [H1 H2]. destruct j as [|j].
  - injection Hj as <-. rewrite Z.add_0_r. change (5 ^ N.of_nat 0) with 1. rewrite N.mul_1_r. exact H1.
  - specialize (IH _ _ H2 j ws Hj). replace (i + 1 + Z.of_nat j)%Z with (i + Z.of_nat (S j))%Z in IH by lia.
    replace (p * 5 * 5 ^ N.of_nat j) with (p * 5 ^ N.of_nat (S j)) in IH; [exact IH|].
    replace (N.of_nat (S j)) with (1 + N.of_nat j) by lia. rewrite N.pow_add_r. change (5 ^ 1) with 5. ring.
Qed.

Definition k_ge (T : finfo) (q : Z) : Z := (cache_b0 T + trunc (int_times q log_2_5))%Z.
Definition k_lt (T : finfo) (i : Z) : Z := (ceil (int_times i log_2_5) - cache_b1 T)%Z.

Definition times_2_5 (n : Z) : Z * Z := times_fast n 5228517251457905 51.
Definition k_ge_fast (T : finfo) (q : Z) : Z := (cache_b0 T + trunc_fast (times_2_5 q))%Z.
Definition k_lt_fast (T : finfo) (i : Z) : Z := (ceil_fast (times_2_5 i) - cache_b1 T)%Z.

Lemma times_2_5_eq n : int_times n log_2_5 = times_2_5 n.
Proof. apply times_fast_eq; [vm_compute; reflexivity|discriminate]. Qed.
Lemma k_ge_fast_eq T q : small_exponent (times_2_5 q) = true -> k_ge T q = k_ge_fast T q.
Proof. intros H. unfold k_ge, k_ge_fast. rewrite times_2_5_eq, trunc_fast_eq by exact H. reflexivity. Qed.
Lemma k_lt_fast_eq T q : small_exponent (times_2_5 q) = true -> k_lt T q = k_lt_fast T q.
Proof. intros H. unfold k_lt, k_lt_fast. rewrite times_2_5_eq, ceil_fast_eq by exact H. reflexivity. Qed.

Definition check_ge (T : finfo) (q : Z) (p t : N) : bool :=
  let e := k_ge_fast T q in let k := 2 ^ Z.to_N e in (0 <=? e)%Z && (t * p <=? k) && (k <? t * p + p).
Definition check_lt (T : finfo) (i : Z) (p t : N) : bool :=
  let e := k_lt_fast T i in let x := N.shiftl p (Z.to_N (- e)) in let y := N.shiftl t (Z.to_N e) in
  (y <=? x) && (x <? y + 2 ^ Z.to_N e).

Lemma double_ge : check_entries (check_ge double_info) 0 1 double_greater_than_equals = true.
Proof. vm_compute. reflexivity. Qed.
Lemma double_lt : check_entries (check_lt double_info) 0 1 double_less_than = true.
Proof. vm_compute. reflexivity. Qed.
Lemma float_ge : check_entries (check_ge float_info) 0 1 float_greater_than_equals = true.
Proof. vm_compute. reflexivity. Qed.
Lemma float_lt : check_entries (check_lt float_info) 0 1 float_less_than = true.
Proof. vm_compute. reflexivity. Qed.

(** ** Every exponent *)
Definition row (T : finfo) (exp : Z) : Z * Z * option (list N) :=
  if (0 <=? exp)%Z then
    let q := Z.max 0 (trunc (int_times exp log_10_2) - 1) in (q, (- exp + q + k_ge T q)%Z, nth_error (greater_than_equals T) (Z.to_nat q))
  else
    let q := Z.max 0 (trunc (int_times (- exp) log_10_5) - 1) in
    (q, (q - k_lt T (- exp - q))%Z, nth_error (less_than T) (Z.to_nat (- exp - q))).

Definition row_fast (T : finfo) (exp : Z) : bool * Z * Z * option (list N) :=
  if (0 <=? exp)%Z then
    let x := times_fast exp 5422874305198590 54 in
    let q := Z.max 0 (trunc_fast x - 1) in
    (small_exponent x && small_exponent (times_2_5 q), q, (- exp + q + k_ge_fast T q)%Z, nth_error (greater_than_equals T) (Z.to_nat q))
  else
    let x := times_fast (- exp) 6295762102141697 53 in
    let q := Z.max 0 (trunc_fast x - 1) in
    (small_exponent x && small_exponent (times_2_5 (- exp - q)), q, (q - k_lt_fast T (- exp - q))%Z,
     nth_error (less_than T) (Z.to_nat (- exp - q))).

Lemma row_fast_eq T exp q s e : row_fast T exp = (true, q, s, e) -> row T exp = (q, s, e) /\
  (if (0 <=? exp)%Z then k_ge T q = k_ge_fast T q else k_lt T (- exp - q) = k_lt_fast T (- exp - q)).
Proof.
  unfold row_fast, row. destruct (0 <=? exp)%Z; intros H; injection H as H1 H2 H3 H4; apply andb_prop in H1; destruct H1 as [H0 H1].
  - rewrite (times_fast_eq exp log_10_2 5422874305198590 54) by (vm_compute; reflexivity || discriminate).
    rewrite trunc_fast_eq by exact H0. rewrite H2 in *. rewrite (k_ge_fast_eq T q H1). rewrite H3, H4. auto.
  - rewrite (times_fast_eq (- exp) log_10_5 6295762102141697 53) by (vm_compute; reflexivity || discriminate).
    rewrite trunc_fast_eq by exact H0. rewrite H2 in *. rewrite (k_lt_fast_eq T _ H1). rewrite H3, H4. auto.
Qed.

Definition zeros (T : finfo) (exp q : Z) (u v w : N) : bool * bool * bool :=
  if (0 <=? exp)%Z then
    ((q <=? max_5_pow T)%Z && (u mod pow_int 5 q =? 0), (q - 1 <=? max_5_pow T)%Z && (v mod pow_int 5 (q - 1) =? 0),
     (q <=? max_5_pow T)%Z && (w mod pow_int 5 q =? 0))
  else
    let some := negb (q =? 0)%Z && (q - 1 <=? max_2_pow T)%Z in
    (some && (q <=? max_2_pow T)%Z && (N.land u (2 ^ Z.to_N q - 1) =? 0), some && (N.land v (2 ^ Z.to_N (q - 1) - 1) =? 0),
     some && (q <=? max_2_pow T)%Z && (N.land w (2 ^ Z.to_N q - 1) =? 0)).

Lemma scaling_row T exp u v w :
  scaling T exp u v w = let '(q, s, e) := row T exp in (q, s, zeros T exp q u v w, e).
Proof. unfold scaling, row, zeros, k_ge, k_lt. destruct (0 <=? exp)%Z; reflexivity. Qed.

Definition check_few (w t P n gap : N) : bool :=
  let wt := w * t in let gt := gap * t in
  (wt <? P * n) || ((P * 13 <=? gt) && (wt <? P * (n * 10))) || ((P * 103 <=? gt) && (wt <? P * (n * 100))).

(** Powers of two: the numbers a, b and c. *)
Definition check_power (v t s M : N) (bad : bool) : bool :=
  let x := v * t - t in
  let a := N.shiftr (x + 2 ^ (s - 1)) s in let b := N.shiftr (v * t) s in let c := N.shiftr ((v + 2) * t) s in
  (a <? b) &&
  (bad || (x + M <=? N.shiftl a s) ||
   forallb (fun p => negb ((a mod p =? 0) && (a + p <=? c) && (2 * (b + 1) <=? 2 * a + p))) [10; 100; 1000]).

Definition check_row (T : finfo) (mu n : N) (bad exp : Z) : bool :=
  match row_fast T exp with
  | (true, q, s, Some ws) =>
    let t := wval ws in let s' := Z.to_N s in let P := 2 ^ s' in let M := 2 ^ (s' - mu) in
    let v := 2 ^ Z.to_N (mentissa_width T + 2) in
    forallb (fun x => x <? 2 ^ 64) ws && ((Nat.eqb (length ws) 1) || (Nat.eqb (length ws) 2)) &&
    (0 <? s)%Z && (s <? 192)%Z && negb (s mod 64 =? 0)%Z &&
    (0 <=? q)%Z && (q <=? Z.abs exp)%Z && ((0 <=? exp)%Z || (0 <? q)%Z || (-2 <=? exp)%Z) &&
    (P <=? t) && (t <? P * 500) && (2 * v * t + P <=? 2 ^ (64 + s')) && (mu <? s') && (2 * (2 * v) <=? M) &&
    forallb (fun j => (2 * t <=? P * j) || (P * j + M <=? 2 * t)) [5; 50; 500] &&
    check_few (2 * v) t P n 4 && check_few (v + 2) t P n 3 && check_power v t s' M (exp =? bad)%Z
  | _ => false
  end.

Fixpoint all_from (n : nat) (z : Z) (f : Z -> bool) : bool :=
  match n with O => true | S n' => f z && all_from n' (z + 1)%Z f end.

Lemma all_from_spec f : forall n z, all_from n z f = true -> forall x, (z <= x < z + Z.of_nat n)%Z -> f x = true.
Proof.
  induction n as [|n IH]; intros z H x Hx; [lia|]. cbn [all_from] in H. apply andb_prop in H. destruct H as [H1 H2].
  destruct (Z.eq_dec x z) as [->|E]; [exact H1|]. apply (IH _ H2). lia.
Qed.

Lemma double_rows : all_from 2046 (-1076) (check_row double_info 40 (10 ^ 17) (-194)) = true.
Proof. vm_compute. reflexivity. Qed.
Lemma float_rows : all_from 254 (-151) (check_row float_info 20 (10 ^ 9) (-1000)) = true.
Proof. vm_compute. reflexivity. Qed.
