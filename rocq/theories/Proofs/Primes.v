(** Fermat's little theorem, Pocklington's criterion, and the primality of 2^255 - 19. *)
From Coq Require Import List ZArith Lia Bool Znumtheory Permutation Zpow_facts.
Import ListNotations.
Open Scope Z_scope.

(** ** Fermat's little theorem *)

Definition units (p : Z) : list Z := map Z.of_nat (seq 1 (Z.to_nat (p - 1))).

Lemma in_units p x : In x (units p) <-> 0 < x < p.
Proof.
  unfold units. rewrite in_map_iff. split.
  - intros (i & <- & H). apply in_seq in H. lia.
  - intros H. exists (Z.to_nat x). split; [lia|]. apply in_seq. lia.
Qed.
Lemma units_length p : length (units p) = Z.to_nat (p - 1).
Proof. unfold units. rewrite map_length, seq_length. reflexivity. Qed.

Definition product (l : list Z) : Z := fold_right Z.mul 1 l.
Lemma product_perm l l' : Permutation l l' -> product l = product l'.
Proof. unfold product. induction 1; cbn [fold_right]; [reflexivity|congruence|ring|congruence]. Qed.

Lemma NoDup_map_inj {A B} (f : A -> B) l :
  NoDup l -> (forall x y, In x l -> In y l -> f x = f y -> x = y) -> NoDup (map f l).
Proof.
  induction l as [|a l IH]; cbn; intros N H; [constructor|]. inversion N; subst. constructor.
  - rewrite in_map_iff. intros (x & E & Hx). apply H in E; [subst; contradiction|right; exact Hx|left; reflexivity].
  - apply IH; [assumption|]. intros x y Hx Hy. apply H; right; assumption.
Qed.

Lemma product_scaled p a l : 0 < p ->
  product (map (fun x => (a * x) mod p) l) mod p = (a ^ Z.of_nat (length l) * product l) mod p.
Proof.
  intros Hp. induction l as [|x l IH]; [reflexivity|].
  cbn [map product fold_right length].
  change (fold_right Z.mul 1 (map (fun x => (a * x) mod p) l)) with (product (map (fun x => (a * x) mod p) l)).
  change (fold_right Z.mul 1 l) with (product l).
  rewrite Z.mul_mod_idemp_l by lia. rewrite <- Z.mul_mod_idemp_r by lia. rewrite IH.
  rewrite Z.mul_mod_idemp_r by lia. f_equal. rewrite Nat2Z.inj_succ, Z.pow_succ_r by lia. ring.
Qed.

Lemma product_rel_prime p l : prime p -> (forall x, In x l -> 0 < x < p) -> rel_prime (product l) p.
Proof.
  intros Hp H. induction l as [|x l IH]; cbn.
  - apply rel_prime_1.
  - apply rel_prime_sym, rel_prime_mult; apply rel_prime_sym.
    + apply rel_prime_le_prime; [exact Hp|]. specialize (H x (or_introl eq_refl)). lia.
    + apply IH. intros y Hy. apply H. right. exact Hy.
Qed.

Theorem fermat p a : prime p -> a mod p <> 0 -> a ^ (p - 1) mod p = 1.
Proof.
  intros Hp Ha. pose proof (prime_ge_2 p Hp) as H2.
  assert (HN : ~ (p | a)) by (intros D; apply Ha; apply Zdivide_mod; exact D).
  assert (inj : forall x y, In x (units p) -> In y (units p) -> (a * x) mod p = (a * y) mod p -> x = y).
  { intros x y Hx Hy E. apply in_units in Hx, Hy.
    assert (D : (p | a * (x - y))).
    { apply Zmod_divide; [lia|]. replace (a * (x - y)) with (a * x - a * y) by ring.
      rewrite Zminus_mod, E, Z.sub_diag. apply Zmod_0_l. }
    apply prime_mult in D; [|exact Hp]. destruct D as [D|D]; [contradiction|].
    destruct D as (k & D). assert (k = 0) by nia. lia. }
  assert (P : Permutation (map (fun x => (a * x) mod p) (units p)) (units p)).
  { apply NoDup_Permutation_bis.
    - apply NoDup_map_inj; [|exact inj]. unfold units. apply NoDup_map_inj; [apply seq_NoDup|]. intros; lia.
    - rewrite map_length. lia.
    - intros y Hy. apply in_map_iff in Hy. destruct Hy as (x & <- & Hx). apply in_units in Hx. apply in_units.
      pose proof (Z.mod_pos_bound (a * x) p ltac:(lia)). enough ((a * x) mod p <> 0) by lia.
      intros E. apply Zmod_divide in E; [|lia]. apply prime_mult in E; [|exact Hp].
      destruct E as [E|E]; [contradiction|]. apply Z.divide_pos_le in E; lia. }
  pose proof (product_perm _ _ P) as E. apply (f_equal (fun z => z mod p)) in E.
  rewrite product_scaled, units_length, Z2Nat.id in E by lia.
  assert (RP : rel_prime (product (units p)) p) by (apply product_rel_prime; [exact Hp|intros x Hx; apply in_units; exact Hx]).
  assert (D : (p | product (units p) * (a ^ (p - 1) - 1))).
  { apply Zmod_divide; [lia|].
    replace (product (units p) * (a ^ (p - 1) - 1)) with (a ^ (p - 1) * product (units p) - product (units p)) by ring.
    rewrite Zminus_mod, E, Z.sub_diag. apply Zmod_0_l. }
  apply Gauss in D; [|apply rel_prime_sym; exact RP].
  destruct D as (k & D). replace (a ^ (p - 1)) with (1 + k * p) by lia.
  rewrite Z.mod_add by lia. apply Z.mod_small. lia.
Qed.

(** ** prime divisors *)

Lemma prime_divisor n : 1 < n -> exists r, prime r /\ (r | n).
Proof.
  intros H. assert (N : exists k, (Z.to_nat n <= k)%nat) by (exists (Z.to_nat n); lia). destruct N as (k & Hk).
  revert n H Hk. induction k; intros n H Hk; [lia|].
  destruct (prime_dec n) as [P|P]; [exists n; split; [exact P|apply Z.divide_refl]|].
  apply not_prime_divide in P; [|exact H]. destruct P as (m & Hm & D).
  destruct (IHk m) as (r & Pr & Dr); [lia|lia|]. exists r. split; [exact Pr|]. eapply Z.divide_trans; eassumption.
Qed.

(** a composite number has a prime divisor at most its square root *)
Lemma small_prime_divisor n : 1 < n -> ~ prime n -> exists r, prime r /\ (r | n) /\ r * r <= n.
Proof.
  intros H P. apply not_prime_divide in P; [|exact H]. destruct P as (m & Hm & D). destruct D as (k & D).
  assert (Hk : 1 < k) by nia.
  destruct (Z.le_gt_cases (m * m) n) as [C|C].
  - destruct (prime_divisor m) as (r & Pr & Dr); [lia|]. exists r. pose proof (prime_ge_2 r Pr).
    split; [exact Pr|]. split; [eapply Z.divide_trans; [exact Dr|]; exists k; lia|].
    apply Z.divide_pos_le in Dr; nia.
  - destruct (prime_divisor k) as (r & Pr & Dr); [lia|]. exists r. pose proof (prime_ge_2 r Pr).
    split; [exact Pr|]. split; [eapply Z.divide_trans; [exact Dr|]; exists m; lia|].
    apply Z.divide_pos_le in Dr; [|lia]. assert (k < m) by nia. nia.
Qed.

(** trial division *)
Definition no_divisor_upto (n b : Z) : bool :=
  forallb (fun i => negb (n mod Z.of_nat i =? 0)) (seq 2 (Z.to_nat (b - 1))).
Lemma trial_division n b : 1 < n -> n < (b + 1) * (b + 1) -> 0 < b -> no_divisor_upto n b = true -> prime n.
Proof.
  intros Hn Hb Hb0 T. destruct (prime_dec n) as [P|P]; [exact P|]. exfalso.
  destruct (small_prime_divisor n Hn P) as (r & Pr & D & S). pose proof (prime_ge_2 r Pr).
  unfold no_divisor_upto in T. rewrite forallb_forall in T. specialize (T (Z.to_nat r)).
  rewrite Z2Nat.id in T by lia. rewrite (Zdivide_mod _ _ D) in T. cbn in T.
  assert (r <= b) by nia. discriminate T. apply in_seq. lia.
Qed.

(** ** Pocklington's criterion *)

Lemma pow_mod_1 x r a b : 0 < r -> 0 <= a -> 0 <= b -> x ^ a mod r = 1 mod r -> x ^ b mod r = 1 mod r ->
  x ^ Z.gcd a b mod r = 1 mod r.
Proof.
  intros Hr. assert (N : exists k, (Z.to_nat b <= k)%nat) by (exists (Z.to_nat b); lia). destruct N as (k & Hk).
  revert a b Hk. induction k; intros a b Hk Ha Hb E1 E2.
  - replace b with 0 by lia. rewrite Z.gcd_0_r, Z.abs_eq by lia. exact E1.
  - destruct (Z.eq_dec b 0) as [->|NZ]; [rewrite Z.gcd_0_r, Z.abs_eq by lia; exact E1|].
    pose proof (Z.mod_pos_bound a b ltac:(lia)) as M.
    rewrite Z.gcd_comm, <- Z.gcd_mod, Z.gcd_comm by lia.
    apply IHk; [lia|lia|lia|exact E2|].
    rewrite (Z.div_mod a b NZ) in E1 at 1. pose proof (Z.div_pos a b Ha ltac:(lia)).
    rewrite Z.pow_add_r, Z.pow_mul_r in E1 by lia.
    rewrite <- Z.mul_mod_idemp_l in E1 by lia.
    rewrite (Zpower_mod (x ^ b) (a / b) r Hr), E2, <- (Zpower_mod 1 (a / b) r Hr), Z.pow_1_l in E1 by lia.
    rewrite Z.mul_mod_idemp_l, Z.mul_1_l in E1 by lia. exact E1.
Qed.

(** each certified prime factor of n - 1 divides r - 1, for every prime divisor r of n *)
Lemma pocklington_step n q c u v r : 1 < n -> prime q -> 0 <= c ->
  c ^ q mod n = 1 -> u * (c - 1) + v * n = 1 -> prime r -> (r | n) -> (q | r - 1).
Proof.
  intros Hn Hq Hc E Bz Hr D. pose proof (prime_ge_2 q Hq). pose proof (prime_ge_2 r Hr).
  destruct D as (m & D).
  assert (E1 : c ^ q mod r = 1 mod r).
  { pose proof (Z.div_mod (c ^ q) n ltac:(lia)) as W. rewrite E in W. rewrite W, D.
    replace (m * r * (c ^ q / (m * r)) + 1) with (1 + (m * (c ^ q / (m * r))) * r) by ring. apply Z.mod_add. lia. }
  assert (Hc1 : c mod r <> 0).
  { intros Z0. rewrite (Zpower_mod c q r), Z0, Z.pow_0_l, Zmod_0_l, Z.mod_1_l in E1 by lia. discriminate. }
  pose proof (fermat r c Hr Hc1) as E2.
  assert (E2' : c ^ (r - 1) mod r = 1 mod r) by (rewrite E2, Z.mod_1_l; lia).
  pose proof (pow_mod_1 c r q (r - 1) ltac:(lia) ltac:(lia) ltac:(lia) E1 E2') as G.
  destruct (Zdivide_dec q (r - 1)) as [Y|Y]; [exact Y|]. exfalso.
  assert (G1 : Z.gcd q (r - 1) = 1) by (apply Zgcd_1_rel_prime, prime_rel_prime; assumption).
  rewrite G1, Z.pow_1_r in G.
  assert (Dr : (r | c - 1)) by (apply Zmod_divide; [lia|]; rewrite Zminus_mod, G, Z.sub_diag; apply Zmod_0_l).
  assert ((r | 1)).
  { rewrite <- Bz. apply Z.divide_add_r; apply Z.divide_mul_r; [exact Dr|]. exists m. exact D. }
  apply Z.divide_pos_le in H1; lia.
Qed.

Lemma pocklington1 n q : 1 < n -> 1 < q -> n < q * q ->
  (forall r, prime r -> (r | n) -> (q | r - 1)) -> prime n.
Proof.
  intros Hn Hq S H. destruct (prime_dec n) as [P|P]; [exact P|]. exfalso.
  destruct (small_prime_divisor n Hn P) as (r & Pr & D & C). pose proof (prime_ge_2 r Pr).
  specialize (H r Pr D). apply Z.divide_pos_le in H; nia.
Qed.

Lemma both_divide p q m : prime p -> prime q -> p <> q -> (p | m) -> (q | m) -> (p * q | m).
Proof.
  intros Hp Hq N (k & ->) D. assert (R : rel_prime q p).
  { apply prime_rel_prime; [exact Hq|]. intros C. apply N. symmetry. apply prime_div_prime; assumption. }
  rewrite Z.mul_comm in D. apply Gauss in D; [|exact R]. destruct D as (j & ->). exists j. ring.
Qed.

(** ** the criterion, checked by computation *)

Fixpoint pow_mod (x : Z) (e : positive) (n : Z) : Z :=
  match e with
  | xH => x mod n
  | xO e => let y := pow_mod x e n in (y * y) mod n
  | xI e => let y := pow_mod x e n in ((y * y) mod n * x) mod n
  end.
Lemma pow_mod_correct x e n : 0 < n -> pow_mod x e n = x ^ Zpos e mod n.
Proof.
  intros Hn. induction e; cbn [pow_mod].
  - rewrite IHe. replace (Zpos e~1) with (Zpos e + Zpos e + 1) by lia.
    rewrite !Z.pow_add_r, Z.pow_1_r by lia.
    rewrite Z.mul_mod_idemp_l, <- Z.mul_mod_idemp_l, <- Z.mul_mod by lia. rewrite Z.mul_mod_idemp_l by lia. reflexivity.
  - rewrite IHe. replace (Zpos e~0) with (Zpos e + Zpos e) by lia. rewrite Z.pow_add_r, <- Z.mul_mod by lia. reflexivity.
  - rewrite Z.pow_1_r. reflexivity.
Qed.

(** ** certificates *)

Lemma prime_q10 : prime 991.
Proof. apply (trial_division 991 31); vm_compute; reflexivity. Qed.
Lemma prime_q7b : prime 103.
Proof. apply (trial_division 103 10); vm_compute; reflexivity. Qed.
Lemma prime_q12 : prime 3727.
Proof. apply (trial_division 3727 61); vm_compute; reflexivity. Qed.
Lemma prime_q17 : prime 75707.
Proof. apply (trial_division 75707 275); vm_compute; reflexivity. Qed.
Lemma prime_q7 : prime 127.
Proof. apply (trial_division 127 11); vm_compute; reflexivity. Qed.
Lemma prime_q24 : prime 8574133.
Proof.
  apply (pocklington1 8574133 (991 * 103)); [reflexivity|reflexivity|reflexivity|].
  intros r Hr D.
  assert (Dq10 : (991 | r - 1)).
  { apply (pocklington_step 8574133 991 3435729 (1014251) (-406419) r); [reflexivity|exact prime_q10|discriminate| |reflexivity|exact Hr|exact D].
    rewrite <- pow_mod_correct by reflexivity. vm_compute. reflexivity. }
  assert (Dq7b : (103 | r - 1)).
  { apply (pocklington_step 8574133 103 4321357 (3531099) (-1779671) r); [reflexivity|exact prime_q7b|discriminate| |reflexivity|exact Hr|exact D].
    rewrite <- pow_mod_correct by reflexivity. vm_compute. reflexivity. }
  apply both_divide; [exact prime_q10|exact prime_q7b|discriminate|assumption|assumption].
Qed.
Lemma prime_q21 : prime 1923133.
Proof.
  apply (pocklington1 1923133 (3727)); [reflexivity|reflexivity|reflexivity|].
  intros r Hr D.
  assert (Dq12 : (3727 | r - 1)).
  { apply (pocklington_step 1923133 3727 740012 (-246082) (94691) r); [reflexivity|exact prime_q12|discriminate| |reflexivity|exact Hr|exact D].
    rewrite <- pow_mod_correct by reflexivity. vm_compute. reflexivity. }
  assumption.
Qed.
Lemma prime_q51 : prime 1919519569386763.
Proof.
  apply (pocklington1 1919519569386763 (8574133 * 127)); [reflexivity|reflexivity|reflexivity|].
  intros r Hr D.
  assert (Dq24 : (8574133 | r - 1)).
  { apply (pocklington_step 1919519569386763 8574133 1059928654987441 (-628972351238870) (347308685415427) r); [reflexivity|exact prime_q24|discriminate| |reflexivity|exact Hr|exact D].
    rewrite <- pow_mod_correct by reflexivity. vm_compute. reflexivity. }
  assert (Dq7 : (127 | r - 1)).
  { apply (pocklington_step 1919519569386763 127 576774792492622 (-49370792198991) (14834872683724) r); [reflexivity|exact prime_q7|discriminate| |reflexivity|exact Hr|exact D].
    rewrite <- pow_mod_correct by reflexivity. vm_compute. reflexivity. }
  apply both_divide; [exact prime_q24|exact prime_q7|discriminate|assumption|assumption].
Qed.
Lemma prime_q116 : prime 75445702479781427272750846543864801.
Proof.
  apply (pocklington1 75445702479781427272750846543864801 (1919519569386763 * 75707)); [reflexivity|reflexivity|reflexivity|].
  intros r Hr D.
  assert (Dq51 : (1919519569386763 | r - 1)).
  { apply (pocklington_step 75445702479781427272750846543864801 1919519569386763 56747016255153332959347766392083459 (-842866693317702384602976973559126) (633968117129599619351168283154509) r); [reflexivity|exact prime_q51|discriminate| |reflexivity|exact Hr|exact D].
    rewrite <- pow_mod_correct by reflexivity. vm_compute. reflexivity. }
  assert (Dq17 : (75707 | r - 1)).
  { apply (pocklington_step 75445702479781427272750846543864801 75707 58781699294900834553279248901967638 (8986369574106813140303762220009459) (-7001513097443202581781503170404782) r); [reflexivity|exact prime_q17|discriminate| |reflexivity|exact Hr|exact D].
    rewrite <- pow_mod_correct by reflexivity. vm_compute. reflexivity. }
  apply both_divide; [exact prime_q51|exact prime_q17|discriminate|assumption|assumption].
Qed.
Lemma prime_q236 : prime 74058212732561358302231226437062788676166966415465897661863160754340907.
Proof.
  apply (pocklington1 74058212732561358302231226437062788676166966415465897661863160754340907 (75445702479781427272750846543864801 * 1923133)); [reflexivity|reflexivity|reflexivity|].
  intros r Hr D.
  assert (Dq116 : (75445702479781427272750846543864801 | r - 1)).
  { apply (pocklington_step 74058212732561358302231226437062788676166966415465897661863160754340907 75445702479781427272750846543864801 69490809710348678725736597923071784769591275419387514694139338586948360 (-3594884028760813294013554313900112110983031014837035776973246868006387) (3373176218490540264342856145421925747107023832160459778726734207506162) r); [reflexivity|exact prime_q116|discriminate| |reflexivity|exact Hr|exact D].
    rewrite <- pow_mod_correct by reflexivity. vm_compute. reflexivity. }
  assert (Dq21 : (1923133 | r - 1)).
  { apply (pocklington_step 74058212732561358302231226437062788676166966415465897661863160754340907 1923133 52266576830164329332527201090776533817489900267135412990654516667243924 (-31390289999159184418847795926030815429819366219370852966300871672252776) (22153694282185102152633019238845470462253849362804087577778574551937707) r); [reflexivity|exact prime_q21|discriminate| |reflexivity|exact Hr|exact D].
    rewrite <- pow_mod_correct by reflexivity. vm_compute. reflexivity. }
  apply both_divide; [exact prime_q116|exact prime_q21|discriminate|assumption|assumption].
Qed.

(** ** 2^255 - 19, with a faster reduction *)

Definition P : Z := 57896044618658097711785492504343953926634992332820282019728792003956564819949.
Definition fold_top (x : Z) : Z := Z.land x 57896044618658097711785492504343953926634992332820282019728792003956564819967 + 19 * Z.shiftr x 255.
Fixpoint pow2_mod (e : positive) : Z :=
  match e with
  | xH => 2
  | xO e => let y := pow2_mod e in fold_top (fold_top (y * y))
  | xI e => let y := pow2_mod e in 2 * fold_top (fold_top (y * y))
  end.
Lemma fold_top_mod x : fold_top x mod P = x mod P.
Proof.
  unfold fold_top. change 57896044618658097711785492504343953926634992332820282019728792003956564819967 with (Z.ones 255). rewrite Z.land_ones, Z.shiftr_div_pow2 by discriminate.
  rewrite (Z.div_mod x (2 ^ 255)) at 3 by discriminate.
  replace (2 ^ 255 * (x / 2 ^ 255) + x mod 2 ^ 255) with (x mod 2 ^ 255 + 19 * (x / 2 ^ 255) + (x / 2 ^ 255) * P).
  - symmetry. apply Z.mod_add. discriminate.
  - replace P with (2 ^ 255 - 19) by reflexivity. ring.
Qed.
Lemma pow2_mod_correct e : pow2_mod e mod P = 2 ^ Zpos e mod P.
Proof.
  assert (NZ : P <> 0) by discriminate.
  induction e; cbn [pow2_mod].
  - rewrite <- Z.mul_mod_idemp_r, !fold_top_mod, Z.mul_mod_idemp_r by exact NZ.
    replace (Zpos e~1) with (1 + (Zpos e + Zpos e)) by lia. rewrite !Z.pow_add_r, Z.pow_1_r by lia.
    rewrite <- (Z.mul_mod_idemp_r 2 (2 ^ Zpos e * 2 ^ Zpos e)), (Z.mul_mod (2 ^ Zpos e)), <- IHe, <- Z.mul_mod, Z.mul_mod_idemp_r by exact NZ.
    reflexivity.
  - rewrite !fold_top_mod. replace (Zpos e~0) with (Zpos e + Zpos e) by lia. rewrite Z.pow_add_r by lia.
    rewrite (Z.mul_mod (2 ^ Zpos e)), <- IHe, <- Z.mul_mod by exact NZ. reflexivity.
  - reflexivity.
Qed.

(** Euler's criterion for 2 *)
Lemma two_half : 2 ^ 28948022309329048855892746252171976963317496166410141009864396001978282409974 mod P = P - 1.
Proof. rewrite <- pow2_mod_correct. vm_compute. reflexivity. Qed.
Lemma two_whole : 2 ^ (P - 1) mod P = 1.
Proof.
  replace (P - 1) with (28948022309329048855892746252171976963317496166410141009864396001978282409974 + 28948022309329048855892746252171976963317496166410141009864396001978282409974) by reflexivity. rewrite Z.pow_add_r by discriminate.
  rewrite Z.mul_mod, two_half by discriminate. reflexivity.
Qed.

Lemma prime_P : prime P.
Proof.
  apply (pocklington1 P 74058212732561358302231226437062788676166966415465897661863160754340907); [reflexivity|reflexivity|reflexivity|].
  intros r Hr D.
  apply (pocklington_step P 74058212732561358302231226437062788676166966415465897661863160754340907 (2 ^ 781764 mod P) (-2355212522539319667277716899338243677401872381675335205048650927450921550865) (17374202531356705828138125260963565265097131870064656002554684858717382349) r);
    [reflexivity|exact prime_q236|apply Z.mod_pos_bound; reflexivity| | |exact Hr|exact D].
  - rewrite <- Zpower_mod by reflexivity. rewrite <- Z.pow_mul_r by discriminate. exact two_whole.
  - rewrite <- pow2_mod_correct. vm_compute. reflexivity.
Qed.
