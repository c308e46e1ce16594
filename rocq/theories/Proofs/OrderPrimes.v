(** Primality of the large prime factors of the orders of Curve25519 and of its twist, by
    chains of Pocklington certificates. *)
From Coq Require Import ZArith Znumtheory List Bool Lia.
From Verif.Proofs Require Import Primes FastMul CurvePrimes.
Import ListNotations.
Open Scope Z_scope.

Lemma prime_12_3797 : prime 3797.
Proof. apply (trial_division 3797 61); vm_compute; reflexivity. Qed.
Lemma prime_20_1210 : prime 531581.
Proof.
  apply (pocklington 531581 (fun x => x mod 531581) ((3797, 32301, 50673, -3079) :: nil)).
  - reflexivity.
  - exact (mod_red 531581 ltac:(discriminate)).
  - cbn [map factor fst]. repeat (apply Forall_cons; [first [exact prime_12_3797]|]). apply Forall_nil.
  - vm_compute. reflexivity.
  - vm_compute. reflexivity.
Qed.
Lemma prime_12_2551 : prime 2551.
Proof. apply (trial_division 2551 50); vm_compute; reflexivity. Qed.
Lemma prime_21_3627 : prime 1224481.
Proof.
  apply (pocklington 1224481 (fun x => x mod 1224481) ((2551, 921659, -123850, 93221) :: nil)).
  - reflexivity.
  - exact (mod_red 1224481 ltac:(discriminate)).
  - cbn [map factor fst]. repeat (apply Forall_cons; [first [exact prime_12_2551]|]). apply Forall_nil.
  - vm_compute. reflexivity.
  - vm_compute. reflexivity.
Qed.
Lemma prime_51_9362 : prime 1257559732178653.
Proof.
  apply (pocklington 1257559732178653 (fun x => x mod 1257559732178653) ((531581, 1139842034583224, 212927577457398, -192995844966701) :: (1224481, 1252739704402215, -466659544684812, 464870912375773) :: nil)).
  - reflexivity.
  - exact (mod_red 1257559732178653 ltac:(discriminate)).
  - cbn [map factor fst]. repeat (apply Forall_cons; [first [exact prime_20_1210 | exact prime_21_3627]|]). apply Forall_nil.
  - vm_compute. reflexivity.
  - vm_compute. reflexivity.
Qed.
Lemma prime_62_7327 : prime 4434155615661930479.
Proof.
  apply (pocklington 4434155615661930479 (fun x => x mod 4434155615661930479) ((1257559732178653, 415787812636281767, 1010501025739283171, -94754006754933215) :: nil)).
  - reflexivity.
  - exact (mod_red 4434155615661930479 ltac:(discriminate)).
  - cbn [map factor fst]. repeat (apply Forall_cons; [first [exact prime_51_9362]|]). apply Forall_nil.
  - vm_compute. reflexivity.
  - vm_compute. reflexivity.
Qed.
Lemma prime_88_7045 : prime 172054593956031949258510691.
Proof.
  apply (pocklington 172054593956031949258510691 (fun x => x mod 172054593956031949258510691) ((4434155615661930479, 81982237619807054769897707, -17779243434318459953124787, 8471625932319896702492053) :: nil)).
  - reflexivity.
  - exact (mod_red 172054593956031949258510691 ltac:(discriminate)).
  - cbn [map factor fst]. repeat (apply Forall_cons; [first [exact prime_62_7327]|]). apply Forall_nil.
  - vm_compute. reflexivity.
  - vm_compute. reflexivity.
Qed.
Lemma prime_134_8873 : prime 19757330305831588566944191468367130476339.
Proof.
  apply (pocklington 19757330305831588566944191468367130476339 (barrett 19757330305831588566944191468367130476339 25171580811350627634341778108051302018631927548 118 170) ((172054593956031949258510691, 9148758478138211201771971577098600188172, -3385675872469944473147229741170731090145, 1567758921019043986448917253982060556964) :: nil)).
  - reflexivity.
  - exact (barrett_ok 19757330305831588566944191468367130476339 _ _ _ ltac:(discriminate)).
  - cbn [map factor fst]. repeat (apply Forall_cons; [first [exact prime_88_7045]|]). apply Forall_nil.
  - vm_compute. reflexivity.
  - vm_compute. reflexivity.
Qed.
Lemma prime_138_4139 : prime 276602624281642239937218680557139826668747.
Proof.
  apply (pocklington 276602624281642239937218680557139826668747 (barrett 276602624281642239937218680557139826668747 460280334836125762456535371118652379769267868262 122 174) ((19757330305831588566944191468367130476339, 16384, 94074944912245044309966580483695483989395, -5572) :: nil)).
  - reflexivity.
  - exact (barrett_ok 276602624281642239937218680557139826668747 _ _ _ ltac:(discriminate)).
  - cbn [map factor fst]. repeat (apply Forall_cons; [first [exact prime_134_8873]|]). apply Forall_nil.
  - vm_compute. reflexivity.
  - vm_compute. reflexivity.
Qed.
Lemma prime_ell : prime 7237005577332262213973186563042994240857116359379907606001950938285454250989.
Proof.
  apply (pocklington 7237005577332262213973186563042994240857116359379907606001950938285454250989 (fun x => fold_red 252 (-27742317777372353535851937790883648493) 7237005577332262213973186563042994240829374041602535252466099000494570602495 (fold_red 252 (-27742317777372353535851937790883648493) 7237005577332262213973186563042994240829374041602535252466099000494570602495 x)) ((276602624281642239937218680557139826668747, 2975531125133123119648879457563281269120703404158613135195788908093573672641, 2233364593245673852815932892735013076939656528578070433728021143254617821614, -918259049265850385831298250211759012539362291049224222049079815310237912731) :: nil)).
  - reflexivity.
  - apply (fold_red2_ok 7237005577332262213973186563042994240857116359379907606001950938285454250989 252 (-27742317777372353535851937790883648493) 7237005577332262213973186563042994240829374041602535252466099000494570602495); [discriminate|discriminate|reflexivity|reflexivity].
  - cbn [map factor fst]. repeat (apply Forall_cons; [first [exact prime_138_4139]|]). apply Forall_nil.
  - vm_compute. reflexivity.
  - vm_compute. reflexivity.
Qed.
Lemma prime_2_3 : prime 3.
Proof. apply (trial_division 3 1); vm_compute; reflexivity. Qed.
Lemma prime_14_1344 : prime 11351.
Proof. apply (trial_division 11351 106); vm_compute; reflexivity. Qed.
Lemma prime_30_4761 : prime 743104567.
Proof.
  apply (pocklington 743104567 (fun x => x mod 743104567) ((3, 675750032, 22451511, -20416520) :: (11351, 586497402, 39408624, -31103369) :: nil)).
  - reflexivity.
  - exact (mod_red 743104567 ltac:(discriminate)).
  - cbn [map factor fst]. repeat (apply Forall_cons; [first [exact prime_2_3 | exact prime_14_1344]|]). apply Forall_nil.
  - vm_compute. reflexivity.
  - vm_compute. reflexivity.
Qed.
Lemma prime_9_383 : prime 383.
Proof. apply (trial_division 383 19); vm_compute; reflexivity. Qed.
Lemma prime_12_3911 : prime 3911.
Proof. apply (trial_division 3911 62); vm_compute; reflexivity. Qed.
Lemma prime_40_4462 : prime 1013266244677.
Proof.
  apply (pocklington 1013266244677 (fun x => x mod 1013266244677) ((383, 406228311782, -451529903159, 181022738340) :: (3911, 718206703563, 301643434691, -213805935033) :: nil)).
  - reflexivity.
  - exact (mod_red 1013266244677 ltac:(discriminate)).
  - cbn [map factor fst]. repeat (apply Forall_cons; [first [exact prime_9_383 | exact prime_12_3911]|]). apply Forall_nil.
  - vm_compute. reflexivity.
  - vm_compute. reflexivity.
Qed.
Lemma prime_138_402 : prime 203852586375664218368381551393371968928013.
Proof.
  apply (pocklington 203852586375664218368381551393371968928013 (barrett 203852586375664218368381551393371968928013 624543209308548304751952175619885847554590730270 122 174) ((743104567, 37948620026154070128396507646550501726293, 67925316354490544927699458618610144406089, -12644784480402310874859749840415294239999) :: (1013266244677, 18354895823941193021347484437084226055132, -4312906625988726716619130356938912805213, 388334301888745619785260690121261382608) :: nil)).
  - reflexivity.
  - exact (barrett_ok 203852586375664218368381551393371968928013 _ _ _ ltac:(discriminate)).
  - cbn [map factor fst]. repeat (apply Forall_cons; [first [exact prime_30_4761 | exact prime_40_4462]|]). apply Forall_nil.
  - vm_compute. reflexivity.
  - vm_compute. reflexivity.
Qed.
Lemma prime_157_2949 : prime 104719073621178708975837602950775180438320278101.
Proof.
  apply (pocklington 104719073621178708975837602950775180438320278101 (barrett 104719073621178708975837602950775180438320278101 334189468893950273500751534226944379053948531659624396 141 193) ((203852586375664218368381551393371968928013, 40201969824907835965098388450003519734389074471, -14634624781842875094817848832324919532110490794, 5618276819434237591263920322093582899678603081) :: nil)).
  - reflexivity.
  - exact (barrett_ok 104719073621178708975837602950775180438320278101 _ _ _ ltac:(discriminate)).
  - cbn [map factor fst]. repeat (apply Forall_cons; [first [exact prime_138_402]|]). apply Forall_nil.
  - vm_compute. reflexivity.
  - vm_compute. reflexivity.
Qed.
Lemma prime_175_9213 : prime 27413359092552162435694767700453926735143482401279781.
Proof.
  apply (pocklington 27413359092552162435694767700453926735143482401279781 (barrett 27413359092552162435694767700453926735143482401279781 87727578245374021968736085013464787228832538048456403571165 159 211) ((104719073621178708975837602950775180438320278101, 6041092171163918423393132352399868606647826176154689, 4031111370769809914916647399004588060065488295890678, -888337516786242510057151565229838612726306685133523) :: nil)).
  - reflexivity.
  - exact (barrett_ok 27413359092552162435694767700453926735143482401279781 _ _ _ ltac:(discriminate)).
  - cbn [map factor fst]. repeat (apply Forall_cons; [first [exact prime_157_2949]|]). apply Forall_nil.
  - vm_compute. reflexivity.
  - vm_compute. reflexivity.
Qed.
Lemma prime_ell_twist : prime 14474011154664524427946373126085988481603263447650325797860494125407373907997.
Proof.
  apply (pocklington 14474011154664524427946373126085988481603263447650325797860494125407373907997 (fun x => fold_red 253 (55484635554744707071703875581767296995) 14474011154664524427946373126085988481658748083205070504932198000989141204991 (fold_red 253 (55484635554744707071703875581767296995) 14474011154664524427946373126085988481658748083205070504932198000989141204991 x)) ((27413359092552162435694767700453926735143482401279781, 3680285710178017958321162512429685261641070754575808221617538005008727093239, -6166258064680288521062747806402877833436506542946521635989448220576421723918, 1567885446419556355589406024502657286364143260291906489837525920263111624505) :: nil)).
  - reflexivity.
  - apply (fold_red2_ok 14474011154664524427946373126085988481603263447650325797860494125407373907997 253 (55484635554744707071703875581767296995) 14474011154664524427946373126085988481658748083205070504932198000989141204991); [discriminate|discriminate|reflexivity|reflexivity].
  - cbn [map factor fst]. repeat (apply Forall_cons; [first [exact prime_175_9213]|]). apply Forall_nil.
  - vm_compute. reflexivity.
  - vm_compute. reflexivity.
Qed.
