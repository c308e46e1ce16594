(** Primality of the field characteristics of P-256, P-384, P-521 and secp256k1, by chains of
    Pocklington certificates. *)
From Coq Require Import ZArith Znumtheory List Bool Lia.
From Verif.Proofs Require Import Primes FastMul.
Import ListNotations.
Open Scope Z_scope.

(** ** the criterion *)
Fixpoint pow_red (red : Z -> Z) (x : Z) (e : positive) : Z :=
  match e with
  | xH => x
  | xO e => let y := pow_red red x e in red (zmul y y)
  | xI e => let y := pow_red red x e in red (zmul (red (zmul y y)) x)
  end.
Lemma pow_red_correct n red x e : n <> 0 -> (forall x, red x mod n = x mod n) -> pow_red red x e mod n = x ^ Zpos e mod n.
Proof.
  intros Hn Hr. induction e; cbn [pow_red]; rewrite ?zmul_mul.
  - rewrite Hr, <- Z.mul_mod_idemp_l, Hr, Z.mul_mod_idemp_l by exact Hn.
    replace (Zpos e~1) with (Zpos e + Zpos e + 1) by lia. rewrite !Z.pow_add_r, Z.pow_1_r by lia.
    rewrite <- Z.mul_mod_idemp_l, (Z.mul_mod (pow_red red x e)), IHe, <- Z.mul_mod, Z.mul_mod_idemp_l by exact Hn. reflexivity.
  - rewrite Hr. replace (Zpos e~0) with (Zpos e + Zpos e) by lia. rewrite Z.pow_add_r by lia.
    rewrite (Z.mul_mod (pow_red red x e)), IHe, <- Z.mul_mod by exact Hn. reflexivity.
  - rewrite Z.pow_1_r. reflexivity.
Qed.

(** reduction modulo n, or folding of the bits above position k, where 2^k = c modulo n *)
Lemma mod_red n : n <> 0 -> forall x, (x mod n) mod n = x mod n.
Proof. intros Hn x. apply Z.mod_mod. exact Hn. Qed.
Definition fold_red (k c ones x : Z) : Z := Z.land x ones + zmul c (Z.shiftr x k).
Lemma fold_red_ok n k c ones : n <> 0 -> (k ?= 0) <> Lt -> Z.ones k = ones -> (2 ^ k - c) mod n = 0 ->
  forall x, fold_red k c ones x mod n = x mod n.
Proof.
  intros Hn Hk <- Hc x. assert (Hk' : 0 <= k) by (apply Z.ge_le; exact Hk).
  unfold fold_red. rewrite zmul_mul, Z.land_ones, Z.shiftr_div_pow2 by exact Hk'.
  apply Z.mod_divide in Hc; [|exact Hn]. destruct Hc as [m Hm].
  pose proof (Z.div_mod x (2 ^ k) ltac:(pose proof (Z.pow_pos_nonneg 2 k ltac:(lia) Hk'); lia)) as D.
  assert (E : x mod 2 ^ k + c * (x / 2 ^ k) = x + (- m * (x / 2 ^ k)) * n).
  { rewrite D at 3. replace (2 ^ k) with (m * n + c) at 3 by lia. ring. }
  rewrite E. apply Z.mod_add. exact Hn.
Qed.
Lemma fold_red2_ok n k c ones : n <> 0 -> (k ?= 0) <> Lt -> Z.ones k = ones -> (2 ^ k - c) mod n = 0 ->
  forall x, fold_red k c ones (fold_red k c ones x) mod n = x mod n.
Proof. intros H1 H2 H3 H4 x. rewrite !(fold_red_ok n) by assumption. reflexivity. Qed.

(** a certificate lists (q, c, u, v) with q prime, c^q = 1 modulo n and u (c - 1) + v n = 1 *)
Definition certificate : Type := Z * Z * Z * Z.
Definition factor (t : certificate) : Z := fst (fst (fst t)).
Definition cert_ok (n : Z) (red : Z -> Z) (t : certificate) : bool :=
  let '(q, c, u, v) := t in
  (0 <=? c) && (pow_red red c (Z.to_pos q) mod n =? 1) && (u * (c - 1) + v * n =? 1).
Fixpoint ascending (l : list Z) : bool :=
  match l with
  | x :: (y :: _) as t => (x <? y) && ascending t
  | _ => true
  end.
Lemma ascending_lt l x : ascending (x :: l) = true -> Forall (fun y => x < y) l.
Proof.
  revert x. induction l as [|y l IH]; intros x H; [constructor|].
  change ((x <? y) && ascending (y :: l) = true) in H. apply andb_true_iff in H. destruct H as [H1 H2]. apply Z.ltb_lt in H1.
  constructor; [exact H1|]. specialize (IH y H2). eapply Forall_impl; [|exact IH]. cbv beta. lia.
Qed.
Lemma product_divides m l : Forall prime l -> ascending l = true -> (forall q, In q l -> (q | m)) -> (product l | m).
Proof.
  intros HP HA HD. induction l as [|q l IH]; [apply Z.divide_1_l|].
  pose proof (ascending_lt l q HA) as G. inversion HP as [|? ? Hq HP']; subst.
  assert (HA' : ascending l = true) by (destruct l; [reflexivity|]; apply andb_true_iff in HA; apply HA).
  specialize (IH HP' HA' (fun r Hr => HD r (or_intror Hr))). change (product (q :: l)) with (q * product l).
  destruct (HD q (or_introl eq_refl)) as [k ->]. rewrite Z.mul_comm in IH.
  apply Gauss in IH.
  - destruct IH as [j ->]. exists j. ring.
  - apply rel_prime_sym. apply prime_rel_prime; [exact Hq|]. clear IH HD k HP HA HA'.
    induction l as [|r l IH]; [intros D; apply Z.divide_pos_le in D; [pose proof (prime_ge_2 q Hq); cbn in D; lia|reflexivity]|].
    change (product (r :: l)) with (r * product l). intros D. apply prime_mult in D; [|exact Hq].
    inversion HP' as [|? ? Hr HP'']; subst. inversion G as [|? ? Gr G']; subst. destruct D as [D|D].
    + apply prime_div_prime in D; [lia|exact Hq|exact Hr].
    + revert D. apply IH; assumption.
Qed.
Theorem pocklington n red l : 1 < n -> (forall x, red x mod n = x mod n) -> Forall prime (map factor l) ->
  forallb (cert_ok n red) l = true ->
  ascending (map factor l) && (n <? product (map factor l) * product (map factor l)) && (1 <? product (map factor l)) = true -> prime n.
Proof.
  intros Hn Hr HP HC HA. apply andb_true_iff in HA. destruct HA as [HA H1]. apply andb_true_iff in HA. destruct HA as [HA HS].
  apply Z.ltb_lt in HS. apply Z.ltb_lt in H1.
  apply (pocklington1 n (product (map factor l)) Hn H1 HS). intros r Pr Dr.
  apply product_divides; [exact HP|exact HA|]. intros q Hq. apply in_map_iff in Hq. destruct Hq as (t & <- & Ht).
  rewrite forallb_forall in HC. specialize (HC t Ht). rewrite Forall_forall in HP.
  specialize (HP (factor t) (in_map factor l t Ht)). destruct t as [[[q c] u] v]. cbn [factor fst] in *. cbn [cert_ok] in HC.
  apply andb_true_iff in HC. destruct HC as [HC C3]. apply andb_true_iff in HC. destruct HC as [C1 C2].
  apply Z.leb_le in C1. apply Z.eqb_eq in C2. apply Z.eqb_eq in C3. pose proof (prime_ge_2 q HP) as Hq2.
  apply (pocklington_step n q c u v r Hn HP C1); [|exact C3|exact Pr|exact Dr].
  rewrite (pow_red_correct n) in C2 by (lia || exact Hr). rewrite Z2Pos.id in C2 by lia. exact C2.
Qed.

(** ** certificates *)

Lemma prime_4_11 : prime 11.
Proof. apply (trial_division 11 3); vm_compute; reflexivity. Qed.
Lemma prime_5_23 : prime 23.
Proof. apply (trial_division 23 4); vm_compute; reflexivity. Qed.
Lemma prime_7_107 : prime 107.
Proof. apply (trial_division 107 10); vm_compute; reflexivity. Qed.
Lemma prime_28_8462 : prime 204061199.
Proof.
  apply (pocklington 204061199 (fun x => x mod 204061199) ((11, 56016089, -23133832, 6350383) :: (23, 148327957, 2464486, -1791385) :: (107, 116529309, 70558875, -40292701) :: nil)).
  - reflexivity.
  - exact (mod_red 204061199 ltac:(discriminate)).
  - cbn [map factor fst]. repeat (apply Forall_cons; [first [exact prime_4_11 | exact prime_5_23 | exact prime_7_107]|]). apply Forall_nil.
  - vm_compute. reflexivity.
  - vm_compute. reflexivity.
Qed.
Lemma prime_35_623 : prime 34282281433.
Proof.
  apply (pocklington 34282281433 (fun x => x mod 34282281433) ((204061199, 29889646155, 5692688330, -4963276443) :: nil)).
  - reflexivity.
  - exact (mod_red 34282281433 ltac:(discriminate)).
  - cbn [map factor fst]. repeat (apply Forall_cons; [first [exact prime_28_8462]|]). apply Forall_nil.
  - vm_compute. reflexivity.
  - vm_compute. reflexivity.
Qed.
Lemma prime_8_197 : prime 197.
Proof. apply (trial_division 197 14); vm_compute; reflexivity. Qed.
Lemma prime_12_3677 : prime 3677.
Proof. apply (trial_division 3677 60); vm_compute; reflexivity. Qed.
Lemma prime_36_3960 : prime 66417393611.
Proof.
  apply (pocklington 66417393611 (fun x => x mod 66417393611) ((197, 34676449721, -15201708662, 7936795731) :: (3677, 66219752670, -16971438686, 16920936085) :: nil)).
  - reflexivity.
  - exact (mod_red 66417393611 ltac:(discriminate)).
  - cbn [map factor fst]. repeat (apply Forall_cons; [first [exact prime_8_197 | exact prime_12_3677]|]). apply Forall_nil.
  - vm_compute. reflexivity.
  - vm_compute. reflexivity.
Qed.
Lemma prime_44_2732 : prime 11290956913871.
Proof.
  apply (pocklington 11290956913871 (fun x => x mod 11290956913871) ((66417393611, 11005834445932, 4247528171144, -4140268376953) :: nil)).
  - reflexivity.
  - exact (mod_red 11290956913871 ltac:(discriminate)).
  - cbn [map factor fst]. repeat (apply Forall_cons; [first [exact prime_36_3960]|]). apply Forall_nil.
  - vm_compute. reflexivity.
  - vm_compute. reflexivity.
Qed.
Lemma prime_150_2053 : prime 774023187263532362759620327192479577272145303.
Proof.
  apply (pocklington 774023187263532362759620327192479577272145303 (barrett 774023187263532362759620327192479577272145303 2759590502026741838609684443742260353765146708032501 134 186) ((34282281433, 698029168169450376428688776093377774925254396, -177589560291809592995174860221164546303987094, 160153720309498450381936004081886288474536677) :: (11290956913871, 62363334908586357327233683356375951471604756, 320823578353898442153005187681585320549721256, -25848874546239207388856993115695594837749793) :: nil)).
  - reflexivity.
  - exact (barrett_ok 774023187263532362759620327192479577272145303 _ _ _ ltac:(discriminate)).
  - cbn [map factor fst]. repeat (apply Forall_cons; [first [exact prime_35_623 | exact prime_44_2732]|]). apply Forall_nil.
  - vm_compute. reflexivity.
  - vm_compute. reflexivity.
Qed.
Lemma prime_160_5694 : prime 835945042244614951780389953367877943453916927241.
Proof.
  apply (pocklington 835945042244614951780389953367877943453916927241 (barrett 835945042244614951780389953367877943453916927241 2679296639123326713112952291927300363620039328257802240 144 196) ((774023187263532362759620327192479577272145303, 759074791811550622595041579907670563367995104130, -6129034987172666070395037703545494997033662836, 5565432799746676722436545515419055739520364045) :: nil)).
  - reflexivity.
  - exact (barrett_ok 835945042244614951780389953367877943453916927241 _ _ _ ltac:(discriminate)).
  - cbn [map factor fst]. repeat (apply Forall_cons; [first [exact prime_150_2053]|]). apply Forall_nil.
  - vm_compute. reflexivity.
  - vm_compute. reflexivity.
Qed.
Lemma prime_256_2471 : prime 115792089210356248762697446949407573530086143415290314195533631308867097853951.
Proof.
  apply (pocklington 115792089210356248762697446949407573530086143415290314195533631308867097853951 (barrett 115792089210356248762697446949407573530086143415290314195533631308867097853951 121416805792377619968920518448270196135814422912380548681077398207475782131668484096 240 292) ((835945042244614951780389953367877943453916927241, 49835480456766173544607506164699712169824023691580347094409044481755491731278, 35893950584104763925847036954507472337811148100266109799856099637894785463246, -15448311581982382821756396509525202587693568224294205004967363464185155815691) :: nil)).
  - reflexivity.
  - exact (barrett_ok 115792089210356248762697446949407573530086143415290314195533631308867097853951 _ _ _ ltac:(discriminate)).
  - cbn [map factor fst]. repeat (apply Forall_cons; [first [exact prime_160_5694]|]). apply Forall_nil.
  - vm_compute. reflexivity.
  - vm_compute. reflexivity.
Qed.
Lemma prime_P256 : prime 115792089210356248762697446949407573530086143415290314195533631308867097853951.
Proof. exact prime_256_2471. Qed.
Lemma prime_14_8389 : prime 8389.
Proof. apply (trial_division 8389 91); vm_compute; reflexivity. Qed.
Lemma prime_16_8536 : prime 38557.
Proof. apply (trial_division 38557 196); vm_compute; reflexivity. Qed.
Lemma prime_12_3253 : prime 3253.
Proof. apply (trial_division 3253 57); vm_compute; reflexivity. Qed.
Lemma prime_19_2072 : prime 312289.
Proof.
  apply (pocklington 312289 (fun x => x mod 312289) ((3253, 257257, 24151, -19895) :: nil)).
  - reflexivity.
  - exact (mod_red 312289 ltac:(discriminate)).
  - cbn [map factor fst]. repeat (apply Forall_cons; [first [exact prime_12_3253]|]). apply Forall_nil.
  - vm_compute. reflexivity.
  - vm_compute. reflexivity.
Qed.
Lemma prime_6_59 : prime 59.
Proof. apply (trial_division 59 7); vm_compute; reflexivity. Qed.
Lemma prime_10_661 : prime 661.
Proof. apply (trial_division 661 25); vm_compute; reflexivity. Qed.
Lemma prime_29_9331 : prime 513928823.
Proof.
  apply (pocklington 513928823 (fun x => x mod 513928823) ((59, 239423485, 135259910, -63013393) :: (661, 28519646, 65192971, -3617778) :: nil)).
  - reflexivity.
  - exact (mod_red 513928823 ltac:(discriminate)).
  - cbn [map factor fst]. repeat (apply Forall_cons; [first [exact prime_6_59 | exact prime_10_661]|]). apply Forall_nil.
  - vm_compute. reflexivity.
  - vm_compute. reflexivity.
Qed.
Lemma prime_36_9753 : prime 53448597593.
Proof.
  apply (pocklington 53448597593 (fun x => x mod 53448597593) ((513928823, 45025957921, -7700279413, 6486839177) :: nil)).
  - reflexivity.
  - exact (mod_red 53448597593 ltac:(discriminate)).
  - cbn [map factor fst]. repeat (apply Forall_cons; [first [exact prime_29_9331]|]). apply Forall_nil.
  - vm_compute. reflexivity.
  - vm_compute. reflexivity.
Qed.
Lemma prime_61_9603 : prime 1357291859799823621.
Proof.
  apply (pocklington 1357291859799823621 (fun x => x mod 1357291859799823621) ((53448597593, 1090557220182166210, 372535664642155041, -299325053721888608) :: nil)).
  - reflexivity.
  - exact (mod_red 1357291859799823621 ltac:(discriminate)).
  - cbn [map factor fst]. repeat (apply Forall_cons; [first [exact prime_36_9753]|]). apply Forall_nil.
  - vm_compute. reflexivity.
  - vm_compute. reflexivity.
Qed.
Lemma prime_8_181 : prime 181.
Proof. apply (trial_division 181 13); vm_compute; reflexivity. Qed.
Lemma prime_15_1393 : prime 21407.
Proof. apply (trial_division 21407 146); vm_compute; reflexivity. Qed.
Lemma prime_28_6140 : prime 246608641.
Proof.
  apply (pocklington 246608641 (fun x => x mod 246608641) ((21407, 170583701, 96349255, -66646539) :: nil)).
  - reflexivity.
  - exact (mod_red 246608641 ltac:(discriminate)).
  - cbn [map factor fst]. repeat (apply Forall_cons; [first [exact prime_15_1393]|]). apply Forall_nil.
  - vm_compute. reflexivity.
  - vm_compute. reflexivity.
Qed.
Lemma prime_69_9661 : prime 529709925838459440593.
Proof.
  apply (pocklington 529709925838459440593 (fun x => x mod 529709925838459440593) ((181, 312277679902560502297, 50067111850743911402, -29515855311611261887) :: (246608641, 271434630141899184787, 133260732011274817172, -68285632836999215287) :: nil)).
  - reflexivity.
  - exact (mod_red 529709925838459440593 ltac:(discriminate)).
  - cbn [map factor fst]. repeat (apply Forall_cons; [first [exact prime_8_181 | exact prime_28_6140]|]). apply Forall_nil.
  - vm_compute. reflexivity.
  - vm_compute. reflexivity.
Qed.
Lemma prime_334_9339 : prime 19173790298027098165721053155794528970226934547887232785722672956982046098136719667167519737147526097.
Proof.
  apply (pocklington 19173790298027098165721053155794528970226934547887232785722672956982046098136719667167519737147526097 (barrett 19173790298027098165721053155794528970226934547887232785722672956982046098136719667167519737147526097 66977517049464051040215786528812139653746053031785382778265700340053277459097356264375868458512553999204344 318 370) ((8389, 18693387497448442175325121902992285850335945130182397141484616120931820529522169560739108240775199107, -615826843016403714366217708281592017493361599710199309821032963618152307335023337732300610970199098, 600397189543713243056090386381418658378105750534981135162540418445411348061046312750781014389966437) :: (38557, 18325560269133751704941741138616589205346606709640114110955218961789313541887336541814101636560367333, -8834207780777894597172202903565899063276491717286394592059191643171817431677201017026490065316254757, 8443390931074990371170868254065288759427089531038348460811078521829629434682529106382985168238474725) :: (312289, 4794633959644162213358916530037835019511497837970597552762829840705136134142246472442604652633159249, -1619418312957923912105388226171791553188346173160325765641356032380487344982732563649600322739048633, 404954780327218653312129009777099650035530399973088245202794225498667133414707542490354634177557505) :: (1357291859799823621, 10680713984376491845527531236271856048131616682723580728836821541812068323386608393050984045059068107, -472612623673879211521056395345150909589671564984824584308715190443767580405326182860398010120031037, 263267730605454015920075239247691662841753576292135231557430669769000492249324974674988691947764659) :: (529709925838459440593, 18654722295080779974836048271850388944497961014241089788342851007261594700951844323631654696672060688, -3597997983336600262792915452628361968629498664496579657625610289527184493691544117783367873327622491, 3500593891668424563312255147618784965265389928101183390620536377364388627502485786271559596835000694) :: nil)).
  - reflexivity.
  - exact (barrett_ok 19173790298027098165721053155794528970226934547887232785722672956982046098136719667167519737147526097 _ _ _ ltac:(discriminate)).
  - cbn [map factor fst]. repeat (apply Forall_cons; [first [exact prime_14_8389 | exact prime_16_8536 | exact prime_19_2072 | exact prime_61_9603 | exact prime_69_9661]|]). apply Forall_nil.
  - vm_compute. reflexivity.
  - vm_compute. reflexivity.
Qed.
Lemma prime_384_4262 : prime 39402006196394479212279040100143613805079739270465446667948293404245721771496870329047266088258938001861606973112319.
Proof.
  apply (pocklington 39402006196394479212279040100143613805079739270465446667948293404245721771496870329047266088258938001861606973112319 (fun x => fold_red 384 340282367000166625977638945021017194497 39402006196394479212279040100143613805079739270465446667948293404245721771497210611414266254884915640806627990306815 (fold_red 384 340282367000166625977638945021017194497 39402006196394479212279040100143613805079739270465446667948293404245721771497210611414266254884915640806627990306815 x)) ((19173790298027098165721053155794528970226934547887232785722672956982046098136719667167519737147526097, 20589130545846038237401292368512872887777285501716675359660390814757880357128794021938900177283661979735628815822797, -10018223931164219082920107406040397773984799049129907955931560373527353088259655933760907971347054722358623621871986, 5234924316496697305050184803270101788115386846006526958388790491508578488952311745646682547283846473236193072696103) :: nil)).
  - reflexivity.
  - exact (fold_red2_ok 39402006196394479212279040100143613805079739270465446667948293404245721771496870329047266088258938001861606973112319 384 340282367000166625977638945021017194497 39402006196394479212279040100143613805079739270465446667948293404245721771497210611414266254884915640806627990306815 ltac:(discriminate) ltac:(discriminate) eq_refl eq_refl).
  - cbn [map factor fst]. repeat (apply Forall_cons; [first [exact prime_334_9339]|]). apply Forall_nil.
  - vm_compute. reflexivity.
  - vm_compute. reflexivity.
Qed.
Lemma prime_P384 : prime 39402006196394479212279040100143613805079739270465446667948293404245721771496870329047266088258938001861606973112319.
Proof. exact prime_384_4262. Qed.
Lemma prime_16_1446 : prime 51481.
Proof. apply (trial_division 51481 226); vm_compute; reflexivity. Qed.
Lemma prime_16_1639 : prime 61681.
Proof. apply (trial_division 61681 248); vm_compute; reflexivity. Qed.
Lemma prime_16_9453 : prime 49481.
Proof. apply (trial_division 49481 222); vm_compute; reflexivity. Qed.
Lemma prime_29_5463 : prime 308761441.
Proof.
  apply (pocklington 308761441 (fun x => x mod 308761441) ((49481, 201156783, 43610143, -28411825) :: nil)).
  - reflexivity.
  - exact (mod_red 308761441 ltac:(discriminate)).
  - cbn [map factor fst]. repeat (apply Forall_cons; [first [exact prime_16_9453]|]). apply Forall_nil.
  - vm_compute. reflexivity.
  - vm_compute. reflexivity.
Qed.
Lemma prime_3_5 : prime 5.
Proof. apply (trial_division 5 2); vm_compute; reflexivity. Qed.
Lemma prime_4_13 : prime 13.
Proof. apply (trial_division 13 3); vm_compute; reflexivity. Qed.
Lemma prime_11_1663 : prime 1663.
Proof. apply (trial_division 1663 40); vm_compute; reflexivity. Qed.
Lemma prime_32_4538 : prime 2400573761.
Proof.
  apply (pocklington 2400573761 (fun x => x mod 2400573761) ((5, 1578101076, 681332232, -447897559) :: (13, 557215547, 758193645, -175990129) :: (1663, 1701215346, -866522697, 614078906) :: nil)).
  - reflexivity.
  - exact (mod_red 2400573761 ltac:(discriminate)).
  - cbn [map factor fst]. repeat (apply Forall_cons; [first [exact prime_3_5 | exact prime_4_13 | exact prime_11_1663]|]). apply Forall_nil.
  - vm_compute. reflexivity.
  - vm_compute. reflexivity.
Qed.
Lemma prime_3_7 : prime 7.
Proof. apply (trial_division 7 2); vm_compute; reflexivity. Qed.
Lemma prime_9_397 : prime 397.
Proof. apply (trial_division 397 19); vm_compute; reflexivity. Qed.
Lemma prime_22_3670 : prime 2995763.
Proof.
  apply (pocklington 2995763 (fun x => x mod 2995763) ((7, 2009474, -652778, 437865) :: (397, 1477918, 1007766, -497167) :: nil)).
  - reflexivity.
  - exact (mod_red 2995763 ltac:(discriminate)).
  - cbn [map factor fst]. repeat (apply Forall_cons; [first [exact prime_3_7 | exact prime_9_397]|]). apply Forall_nil.
  - vm_compute. reflexivity.
  - vm_compute. reflexivity.
Qed.
Lemma prime_36_6738 : prime 65427463921.
Proof.
  apply (pocklington 65427463921 (fun x => x mod 65427463921) ((2995763, 42122182386, 11681146965, -7520319044) :: nil)).
  - reflexivity.
  - exact (mod_red 65427463921 ltac:(discriminate)).
  - cbn [map factor fst]. repeat (apply Forall_cons; [first [exact prime_22_3670]|]). apply Forall_nil.
  - vm_compute. reflexivity.
  - vm_compute. reflexivity.
Qed.
Lemma prime_10_683 : prime 683.
Proof. apply (trial_division 683 26); vm_compute; reflexivity. Qed.
Lemma prime_11_1433 : prime 1433.
Proof. apply (trial_division 1433 37); vm_compute; reflexivity. Qed.
Lemma prime_47_8014 : prime 108140989558681.
Proof.
  apply (pocklington 108140989558681 (fun x => x mod 108140989558681) ((13, 1048576, -7391529325666, 71671) :: (683, 49122916276124, 25304209639743, -11494407223748) :: (1433, 13658565625704, -3507761922610, 443041964151) :: nil)).
  - reflexivity.
  - exact (mod_red 108140989558681 ltac:(discriminate)).
  - cbn [map factor fst]. repeat (apply Forall_cons; [first [exact prime_4_13 | exact prime_10_683 | exact prime_11_1433]|]). apply Forall_nil.
  - vm_compute. reflexivity.
  - vm_compute. reflexivity.
Qed.
Lemma prime_2_3 : prime 3.
Proof. apply (trial_division 3 1); vm_compute; reflexivity. Qed.
Lemma prime_12_2437 : prime 2437.
Proof. apply (trial_division 2437 49); vm_compute; reflexivity. Qed.
Lemma prime_24_5421 : prime 9211861.
Proof.
  apply (pocklington 9211861 (fun x => x mod 9211861) ((3, 2162969, 2349630, -551699) :: (2437, 7725237, -3423618, 2871109) :: nil)).
  - reflexivity.
  - exact (mod_red 9211861 ltac:(discriminate)).
  - cbn [map factor fst]. repeat (apply Forall_cons; [first [exact prime_2_3 | exact prime_12_2437]|]). apply Forall_nil.
  - vm_compute. reflexivity.
  - vm_compute. reflexivity.
Qed.
Lemma prime_35_1418 : prime 24098228377.
Proof.
  apply (pocklington 24098228377 (fun x => x mod 24098228377) ((9211861, 7249217957, -3855190923, 1159716757) :: nil)).
  - reflexivity.
  - exact (mod_red 24098228377 ltac:(discriminate)).
  - cbn [map factor fst]. repeat (apply Forall_cons; [first [exact prime_24_5421]|]). apply Forall_nil.
  - vm_compute. reflexivity.
  - vm_compute. reflexivity.
Qed.
Lemma prime_40_9684 : prime 674750394557.
Proof.
  apply (pocklington 674750394557 (fun x => x mod 674750394557) ((24098228377, 268435456, -244492590221, 97266308) :: nil)).
  - reflexivity.
  - exact (mod_red 674750394557 ltac:(discriminate)).
  - cbn [map factor fst]. repeat (apply Forall_cons; [first [exact prime_35_1418]|]). apply Forall_nil.
  - vm_compute. reflexivity.
  - vm_compute. reflexivity.
Qed.
Lemma prime_59_4705 : prime 361725589517273017.
Proof.
  apply (pocklington 361725589517273017 (fun x => x mod 361725589517273017) ((674750394557, 206817309394499644, -177636441499458228, 101563980945774565) :: nil)).
  - reflexivity.
  - exact (mod_red 361725589517273017 ltac:(discriminate)).
  - cbn [map factor fst]. repeat (apply Forall_cons; [first [exact prime_40_9684]|]). apply Forall_nil.
  - vm_compute. reflexivity.
  - vm_compute. reflexivity.
Qed.
Lemma prime_88_8446 : prime 173308343918874810521923841.
Proof.
  apply (pocklington 173308343918874810521923841 (fun x => x mod 173308343918874810521923841) ((361725589517273017, 9183761016836624269894002, -60345212451500093217033313, 3197745689175983015871954) :: nil)).
  - reflexivity.
  - exact (mod_red 173308343918874810521923841 ltac:(discriminate)).
  - cbn [map factor fst]. repeat (apply Forall_cons; [first [exact prime_59_4705]|]). apply Forall_nil.
  - vm_compute. reflexivity.
  - vm_compute. reflexivity.
Qed.
Lemma prime_521_2351 : prime 6864797660130609714981900799081393217269435300143305409394463459185543183397656052122559640661454554977296311391480858037121987999716643812574028291115057151.
Proof.
  apply (pocklington 6864797660130609714981900799081393217269435300143305409394463459185543183397656052122559640661454554977296311391480858037121987999716643812574028291115057151 (fun x => fold_red 521 1 6864797660130609714981900799081393217269435300143305409394463459185543183397656052122559640661454554977296311391480858037121987999716643812574028291115057151 (fold_red 521 1 6864797660130609714981900799081393217269435300143305409394463459185543183397656052122559640661454554977296311391480858037121987999716643812574028291115057151 x)) ((51481, 5314334451970258299142921641111332744360213654115066427810655460671499357892253252259848733237289882788114034370473191804544636528147974583808769293970345611, 208659528898038031765243770751392061236804712618639386620549935620935615523657483497034116296199047328061079968857847980800600672418384622472230248794604132, -161532295350075843469331822532292706352110390320527691984974688922062272716553485686661821342294043610784155063831262492553898569065976024515000167900102169) :: (61681, 908467172312097491262367113083357522965735932008877076775296280521166395169583832371839681288940670793421113829883184657939964224625460016505988887040029647, 3341840608025316993802908078764047396721721454028584929920751458955525463018466970128400214491488757706318891634834540225393677733863278690673816127864376303, -442249376864042667014884536668186247408960531772154242399628795719084469136550972257058310577840508386322765681487675033057405129960533566819542982881216687) :: (308761441, 1623889643233634573993602058016407655328141090820326818495641584970893961220942206555491516809574561195117209027502533998765179014195862801239601346069015353, -3273882020527954293116337315802673895670744128850039333997191926099501061934240896006746670937190293988435035057255653330762274190891856801043242659557725466, 774447167930511163218818569289413985719286698751872574958223211263588229309808511197734204372145324843240055372978626900341630276853391372751714168139285583) :: (2400573761, 1380874192327717388082288631309116191900933214983527487372909874424674266874074700692801808154649700940917111200136259256360265846213945449743250295990946287, 2520606218608634882394832217569255465844393423080553407771326579875311935204639994713364075901884872585910111680317334894480474606167798483794081571649727564, -507027336947204041528831968056272121473711510993121912692619595720500549056026234574483736976703704029473301926558353327951495157816316985267508218521003353) :: (65427463921, 6512740200978147221820528467633942643040181066780047388147181964537846353846469052317558538489073912329794774901895899237559116951420139188716322281368423490, 1554052947962961277781815108872592295246480335993777250639421559043146779205075052366887913834776440259864705519770785678635752467793428942740474029957265698, -1474354177607969528929307919020650724202343069269642142631093608665939890116505641921628569155164595042385102905448382109757274130732253701918688531075032671) :: (108140989558681, 5544264574857850964197733731661996467755052040950199944180374754841464329009999810703863617519207144860949817044524829625784502045225800019021018185516947150, -2490720064457188828219832719723523927942626151770035928640293915538654609888534320439236042610177842002453590383585821951477646243374560479666047152473382505, 2011597675989611173718086518256264334181348747549647508139109160035435792891828324685563828499375366930470512769882763058239885836662045581051588710055354346) :: (173308343918874810521923841, 6757709552787258283224292191130684403894131589762095923502462941530245153069290375851876247496322657786424190818591301735358207324248587433958854421908561004, -680747949947972667730918541788723661315448767048565040933697837365345868766542447090388184502496215038363406122524346847755007292836608016026448276906743581, 670128553259679319201109199344469109512755591429704912927430108008097730506571133409644910253715851364722601986671962848761922812432527635401041724458642144) :: nil)).
  - reflexivity.
  - exact (fold_red2_ok 6864797660130609714981900799081393217269435300143305409394463459185543183397656052122559640661454554977296311391480858037121987999716643812574028291115057151 521 1 6864797660130609714981900799081393217269435300143305409394463459185543183397656052122559640661454554977296311391480858037121987999716643812574028291115057151 ltac:(discriminate) ltac:(discriminate) eq_refl eq_refl).
  - cbn [map factor fst]. repeat (apply Forall_cons; [first [exact prime_16_1446 | exact prime_16_1639 | exact prime_29_5463 | exact prime_32_4538 | exact prime_36_6738 | exact prime_47_8014 | exact prime_88_8446]|]). apply Forall_nil.
  - vm_compute. reflexivity.
  - vm_compute. reflexivity.
Qed.
Lemma prime_P521 : prime 6864797660130609714981900799081393217269435300143305409394463459185543183397656052122559640661454554977296311391480858037121987999716643812574028291115057151.
Proof. exact prime_521_2351. Qed.
Lemma prime_11_1627 : prime 1627.
Proof. apply (trial_division 1627 40); vm_compute; reflexivity. Qed.
Lemma prime_12_2657 : prime 2657.
Proof. apply (trial_division 2657 51); vm_compute; reflexivity. Qed.
Lemma prime_17_6494 : prime 96557.
Proof. apply (trial_division 96557 310); vm_compute; reflexivity. Qed.
Lemma prime_15_99 : prime 20113.
Proof. apply (trial_division 20113 141); vm_compute; reflexivity. Qed.
Lemma prime_21_5941 : prime 1206781.
Proof.
  apply (pocklington 1206781 (fun x => x mod 1206781) ((20113, 78448, -497422, 32335) :: nil)).
  - reflexivity.
  - exact (mod_red 1206781 ltac:(discriminate)).
  - cbn [map factor fst]. repeat (apply Forall_cons; [first [exact prime_15_99]|]). apply Forall_nil.
  - vm_compute. reflexivity.
  - vm_compute. reflexivity.
Qed.
Lemma prime_23_5626 : prime 7240687.
Proof.
  apply (pocklington 7240687 (fun x => x mod 7240687) ((1206781, 64, -1494110, 13) :: nil)).
  - reflexivity.
  - exact (mod_red 7240687 ltac:(discriminate)).
  - cbn [map factor fst]. repeat (apply Forall_cons; [first [exact prime_21_5941]|]). apply Forall_nil.
  - vm_compute. reflexivity.
  - vm_compute. reflexivity.
Qed.
Lemma prime_128_3366 : prime 255515944373312847190720520512484175977.
Proof.
  apply (pocklington 255515944373312847190720520512484175977 (barrett 255515944373312847190720520512484175977 475182893427253948782207819452227915685560320 112 164) ((7, 56099780914648300647526411758971086331, -123797344206392490507261093814816143362, 27180315126038330457064744255151422893) :: (1627, 139347696063128176191966445215362426467, 48737123758455344036472189570926929936, -26579186379703752274117013183419752775) :: (2657, 143956822027753060452052492058023902812, 123560888977749334126346025336906906851, -69613788477219621545770601545561740080) :: (96557, 47418180093458530687350227428022525796, 52333299885033245219942804006191421971, -9711917762783113719871713016506270872) :: (7240687, 111233916942653821000329437866037388564, -79971550269287466041211257148389035036, 34814065330626291403893160521781755597) :: nil)).
  - reflexivity.
  - exact (barrett_ok 255515944373312847190720520512484175977 _ _ _ ltac:(discriminate)).
  - cbn [map factor fst]. repeat (apply Forall_cons; [first [exact prime_3_7 | exact prime_11_1627 | exact prime_12_2657 | exact prime_17_6494 | exact prime_23_5626]|]). apply Forall_nil.
  - vm_compute. reflexivity.
  - vm_compute. reflexivity.
Qed.
Lemma prime_237_2428 : prime 205115282021455665897114700593932402728804164701536103180137503955397371.
Proof.
  apply (pocklington 205115282021455665897114700593932402728804164701536103180137503955397371 (barrett 205115282021455665897114700593932402728804164701536103180137503955397371 249356009675705769626255567928598461597990716108004541369181343991537324427322 221 273) ((255515944373312847190720520512484175977, 53072002638256206696760401718638995221936714922431175139555783581918754, 81475874003799270243122483189086420723726815346591292526890606927317739, -21081256147611433302736580915228063873871010806801427666805511047392446) :: nil)).
  - reflexivity.
  - exact (barrett_ok 205115282021455665897114700593932402728804164701536103180137503955397371 _ _ _ ltac:(discriminate)).
  - cbn [map factor fst]. repeat (apply Forall_cons; [first [exact prime_128_3366]|]). apply Forall_nil.
  - vm_compute. reflexivity.
  - vm_compute. reflexivity.
Qed.
Lemma prime_256_627 : prime 115792089237316195423570985008687907853269984665640564039457584007908834671663.
Proof.
  apply (pocklington 115792089237316195423570985008687907853269984665640564039457584007908834671663 (fun x => fold_red 256 4294968273 115792089237316195423570985008687907853269984665640564039457584007913129639935 (fold_red 256 4294968273 115792089237316195423570985008687907853269984665640564039457584007913129639935 x)) ((205115282021455665897114700593932402728804164701536103180137503955397371, 30133174243114333125352536507925183895021889065932097717961225114769139489296, 38738227534097492269493948901333532538630784921480042032654553727346127695815, -10081049300025779439656074993348321903608605725784878135637996734732791756248) :: nil)).
  - reflexivity.
  - exact (fold_red2_ok 115792089237316195423570985008687907853269984665640564039457584007908834671663 256 4294968273 115792089237316195423570985008687907853269984665640564039457584007913129639935 ltac:(discriminate) ltac:(discriminate) eq_refl eq_refl).
  - cbn [map factor fst]. repeat (apply Forall_cons; [first [exact prime_237_2428]|]). apply Forall_nil.
  - vm_compute. reflexivity.
  - vm_compute. reflexivity.
Qed.
Lemma prime_k256 : prime 115792089237316195423570985008687907853269984665640564039457584007908834671663.
Proof. exact prime_256_627. Qed.
