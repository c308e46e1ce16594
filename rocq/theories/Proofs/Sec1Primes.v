(** Primality of the orders of the base points of P-256, P-384, P-521 and secp256k1, by chains of
    Pocklington certificates and one elliptic curve. *)
From Coq Require Import ZArith Znumtheory List Bool Lia.
From Verif.Proofs Require Import Primes FastMul CurvePrimes Sec1Chain Ecpp.
Import ListNotations.
Open Scope Z_scope.

Lemma prime_15_6692 : prime 16699.
Proof. apply (trial_division 16699 129); vm_compute; reflexivity. Qed.

Lemma prime_12_2861 : prime 2861.
Proof. apply (trial_division 2861 53); vm_compute; reflexivity. Qed.

Lemma prime_17_5775 : prime 85831.
Proof.
  apply (pocklington 85831 (fun x => x mod 85831) ((2861, 81845, 38061, -36293) :: nil)).
  - reflexivity.
  - exact (mod_red 85831 ltac:(discriminate)).
  - cbn [map factor fst]. repeat (apply Forall_cons; [first [exact prime_12_2861]|]). apply Forall_nil.
  - vm_compute. reflexivity.
  - vm_compute. reflexivity.
Qed.

Lemma prime_57_3557 : prime 107361793816595537.
Proof.
  apply (pocklington 107361793816595537 (fun x => x mod 107361793816595537) ((16699, 61702295818115, -10705454438084593, 6152571535219) :: (85831, 101608383539442156, -17979720620402735, 17016205521404998) :: nil)).
  - reflexivity.
  - exact (mod_red 107361793816595537 ltac:(discriminate)).
  - cbn [map factor fst]. repeat (apply Forall_cons; [first [exact prime_15_6692 | exact prime_17_5775]|]). apply Forall_nil.
  - vm_compute. reflexivity.
  - vm_compute. reflexivity.
Qed.

Lemma prime_12_2731 : prime 2731.
Proof. apply (trial_division 2731 52); vm_compute; reflexivity. Qed.

Lemma prime_19_5663 : prime 305873.
Proof.
  apply (pocklington 305873 (fun x => x mod 305873) ((2731, 228863, 95101, -71157) :: nil)).
  - reflexivity.
  - exact (mod_red 305873 ltac:(discriminate)).
  - cbn [map factor fst]. repeat (apply Forall_cons; [first [exact prime_12_2731]|]). apply Forall_nil.
  - vm_compute. reflexivity.
  - vm_compute. reflexivity.
Qed.

Lemma prime_11_1871 : prime 1871.
Proof. apply (trial_division 1871 43); vm_compute; reflexivity. Qed.

Lemma prime_21_6637 : prime 1627771.
Proof.
  apply (pocklington 1627771 (fun x => x mod 1627771) ((1871, 910796, 589711, -329964) :: nil)).
  - reflexivity.
  - exact (mod_red 1627771 ltac:(discriminate)).
  - cbn [map factor fst]. repeat (apply Forall_cons; [first [exact prime_11_1871]|]). apply Forall_nil.
  - vm_compute. reflexivity.
  - vm_compute. reflexivity.
Qed.

Lemma prime_39_6634 : prime 297159362677.
Proof.
  apply (pocklington 297159362677 (fun x => x mod 297159362677) ((1627771, 114170894341, 44169280672, -16970174627) :: nil)).
  - reflexivity.
  - exact (mod_red 297159362677 ltac:(discriminate)).
  - cbn [map factor fst]. repeat (apply Forall_cons; [first [exact prime_21_6637]|]). apply Forall_nil.
  - vm_compute. reflexivity.
  - vm_compute. reflexivity.
Qed.

Lemma prime_95_1536 : prime 29047611873442575647497758179.
Proof.
  apply (pocklington 29047611873442575647497758179 (fun x => x mod 29047611873442575647497758179) ((305873, 15515419077790409984750505041, 10871710434968333415178461031, -5806988341273569901596867141) :: (297159362677, 16062460713643416818883781819, 7881196461825673388358983901, -4358065960676078314225264123) :: nil)).
  - reflexivity.
  - exact (mod_red 29047611873442575647497758179 ltac:(discriminate)).
  - cbn [map factor fst]. repeat (apply Forall_cons; [first [exact prime_19_5663 | exact prime_39_6634]|]). apply Forall_nil.
  - vm_compute. reflexivity.
  - vm_compute. reflexivity.
Qed.

Lemma prime_109_9151 : prime 341948486974166000522343609283189.
Proof.
  apply (pocklington 341948486974166000522343609283189 (barrett 341948486974166000522343609283189 1291749438938056002355153130787603465430 93 145) ((29047611873442575647497758179, 291782875431971620014836968593543, -111036065941444008977265808213611, 94746500806995016556601812188567) :: nil)).
  - reflexivity.
  - exact (barrett_ok 341948486974166000522343609283189 _ _ _ ltac:(discriminate)).
  - cbn [map factor fst]. repeat (apply Forall_cons; [first [exact prime_95_1536]|]). apply Forall_nil.
  - vm_compute. reflexivity.
  - vm_compute. reflexivity.
Qed.

Lemma prime_order_k256 : prime 115792089237316195423570985008687907852837564279074904382605163141518161494337.
Proof.
  apply (pocklington 115792089237316195423570985008687907852837564279074904382605163141518161494337 (fun x => fold_red 256 (432420386565659656852420866394968145599) 115792089237316195423570985008687907853269984665640564039457584007913129639935 (fold_red 256 (432420386565659656852420866394968145599) 115792089237316195423570985008687907853269984665640564039457584007913129639935 (fold_red 256 (432420386565659656852420866394968145599) 115792089237316195423570985008687907853269984665640564039457584007913129639935 (x)))) ((107361793816595537, 63370834560308318187052870165424820484109585881155964085779689793840765846755, -39909164305549583450298512724119226859565490680000981484040066988531409376464, 21841535680937533771266471135372149847193098154114484387049756820725518820961) :: (341948486974166000522343609283189, 86644313145397489891193855759928671818841495415153161568930588450251036589538, 57112704531168816596589732607440886458891436705097388389849158079043094771009, -42736002852813264955634017004243308499087223244295714589437664442505423119136) :: nil)).
  - reflexivity.
  - intros x. rewrite !(fold_red_ok 115792089237316195423570985008687907852837564279074904382605163141518161494337 256 (432420386565659656852420866394968145599) 115792089237316195423570985008687907853269984665640564039457584007913129639935) by first [discriminate|reflexivity]. reflexivity.
  - cbn [map factor fst]. repeat (apply Forall_cons; [first [exact prime_57_3557 | exact prime_109_9151]|]). apply Forall_nil.
  - vm_compute. reflexivity.
  - vm_compute. reflexivity.
Qed.

Lemma prime_9_337 : prime 337.
Proof. apply (trial_division 337 18); vm_compute; reflexivity. Qed.

Lemma prime_17_4401 : prime 104471.
Proof.
  apply (pocklington 104471 (fun x => x mod 104471) ((337, 41739, 27776, -11097) :: nil)).
  - reflexivity.
  - exact (mod_red 104471 ltac:(discriminate)).
  - cbn [map factor fst]. repeat (apply Forall_cons; [first [exact prime_9_337]|]). apply Forall_nil.
  - vm_compute. reflexivity.
  - vm_compute. reflexivity.
Qed.

Lemma prime_22_7127 : prime 3969899.
Proof.
  apply (pocklington 3969899 (fun x => x mod 3969899) ((104471, 2100184, -1726249, 913232) :: nil)).
  - reflexivity.
  - exact (mod_red 3969899 ltac:(discriminate)).
  - cbn [map factor fst]. repeat (apply Forall_cons; [first [exact prime_17_4401]|]). apply Forall_nil.
  - vm_compute. reflexivity.
  - vm_compute. reflexivity.
Qed.

Lemma prime_40_489 : prime 1002328039319.
Proof.
  apply (pocklington 1002328039319 (fun x => x mod 1002328039319) ((3969899, 221842812587, -283466447500, 62738935279) :: nil)).
  - reflexivity.
  - exact (mod_red 1002328039319 ltac:(discriminate)).
  - cbn [map factor fst]. repeat (apply Forall_cons; [first [exact prime_22_7127]|]). apply Forall_nil.
  - vm_compute. reflexivity.
  - vm_compute. reflexivity.
Qed.

Lemma prime_2_3 : prime 3.
Proof. apply (trial_division 3 1); vm_compute; reflexivity. Qed.

Lemma prime_3_7 : prime 7.
Proof. apply (trial_division 7 2); vm_compute; reflexivity. Qed.

Lemma prime_6_43 : prime 43.
Proof. apply (trial_division 43 6); vm_compute; reflexivity. Qed.

Lemma prime_18_5212 : prime 155317.
Proof.
  apply (pocklington 155317 (fun x => x mod 155317) ((3, 53025, -69448, 23709) :: (7, 16223, 450, -47) :: (43, 23632, -7243, 1102) :: nil)).
  - reflexivity.
  - exact (mod_red 155317 ltac:(discriminate)).
  - cbn [map factor fst]. repeat (apply Forall_cons; [first [exact prime_2_3 | exact prime_3_7 | exact prime_6_43]|]). apply Forall_nil.
  - vm_compute. reflexivity.
  - vm_compute. reflexivity.
Qed.

Lemma prime_28_6281 : prime 191039911.
Proof.
  apply (pocklington 191039911 (fun x => x mod 191039911) ((155317, 76243073, 69522358, -27746025) :: nil)).
  - reflexivity.
  - exact (mod_red 191039911 ltac:(discriminate)).
  - cbn [map factor fst]. repeat (apply Forall_cons; [first [exact prime_18_5212]|]). apply Forall_nil.
  - vm_compute. reflexivity.
  - vm_compute. reflexivity.
Qed.

Lemma prime_58_7513 : prime 208150935158385979.
Proof.
  apply (pocklington 208150935158385979 (fun x => x mod 208150935158385979) ((3, 190094474308917318, 75402465335951546, -68861530690349139) :: (191039911, 89709188498985666, -74295339725854980, 32019912045993919) :: nil)).
  - reflexivity.
  - exact (mod_red 208150935158385979 ltac:(discriminate)).
  - cbn [map factor fst]. repeat (apply Forall_cons; [first [exact prime_2_3 | exact prime_28_6281]|]). apply Forall_nil.
  - vm_compute. reflexivity.
  - vm_compute. reflexivity.
Qed.

Lemma prime_92_8773 : prime 2624747550333869278416773953.
Proof.
  apply (pocklington 2624747550333869278416773953 (fun x => x mod 2624747550333869278416773953) ((208150935158385979, 9274061155462587152010873, -589074261529342015922502375, 2081385208203040056164617) :: nil)).
  - reflexivity.
  - exact (mod_red 2624747550333869278416773953 ltac:(discriminate)).
  - cbn [map factor fst]. repeat (apply Forall_cons; [first [exact prime_58_7513]|]). apply Forall_nil.
  - vm_compute. reflexivity.
  - vm_compute. reflexivity.
Qed.

Lemma prime_order_p256 : prime 115792089210356248762697446949407573529996955224135760342422259061068512044369.
Proof.
  apply (pocklington 115792089210356248762697446949407573529996955224135760342422259061068512044369 (barrett 115792089210356248762697446949407573529996955224135760342422259061068512044369 121416805792377619968920518448270196135907943509152175063624762733877844601196670482 240 292) ((1002328039319, 75826181402772799521319382390190118258099127975743022721581095372707945421081, 9631013060085677371482002832704039550345574303883859918124457045788451041694, -6306846593464998713267894978977654199470285288516574978017596443495004344351) :: (2624747550333869278416773953, 87100853353288773503221377379439407917267979139877395891460378271501865302703, 51921223869577043025896233410665706485550009771255122920941358412934482395187, -39056061057604895623894328425221634065315908529882929548383616334901599789017) :: nil)).
  - reflexivity.
  - exact (barrett_ok 115792089210356248762697446949407573529996955224135760342422259061068512044369 _ _ _ ltac:(discriminate)).
  - cbn [map factor fst]. repeat (apply Forall_cons; [first [exact prime_40_489 | exact prime_92_8773]|]). apply Forall_nil.
  - vm_compute. reflexivity.
  - vm_compute. reflexivity.
Qed.

Lemma prime_8_251 : prime 251.
Proof. apply (trial_division 251 15); vm_compute; reflexivity. Qed.

Lemma prime_7_73 : prime 73.
Proof. apply (trial_division 73 8); vm_compute; reflexivity. Qed.

Lemma prime_8_233 : prime 233.
Proof. apply (trial_division 233 15); vm_compute; reflexivity. Qed.

Lemma prime_29_9646 : prime 272109983.
Proof.
  apply (pocklington 272109983 (fun x => x mod 272109983) ((73, 233541755, 43510825, -37343703) :: (233, 211714062, -108431188, 84364443) :: nil)).
  - reflexivity.
  - exact (mod_red 272109983 ltac:(discriminate)).
  - cbn [map factor fst]. repeat (apply Forall_cons; [first [exact prime_7_73 | exact prime_8_233]|]). apply Forall_nil.
  - vm_compute. reflexivity.
  - vm_compute. reflexivity.
Qed.

Lemma prime_38_6978 : prime 228572385721.
Proof.
  apply (pocklington 228572385721 (fun x => x mod 228572385721) ((272109983, 228249034435, -32789065624, 32742680377) :: nil)).
  - reflexivity.
  - exact (mod_red 228572385721 ltac:(discriminate)).
  - cbn [map factor fst]. repeat (apply Forall_cons; [first [exact prime_29_9646]|]). apply Forall_nil.
  - vm_compute. reflexivity.
  - vm_compute. reflexivity.
Qed.

Lemma prime_45_1260 : prime 23314383343543.
Proof.
  apply (pocklington 23314383343543 (fun x => x mod 23314383343543) ((228572385721, 20351814924465, 1293503794781, -1129137727881) :: nil)).
  - reflexivity.
  - exact (mod_red 23314383343543 ltac:(discriminate)).
  - cbn [map factor fst]. repeat (apply Forall_cons; [first [exact prime_38_6978]|]). apply Forall_nil.
  - vm_compute. reflexivity.
  - vm_compute. reflexivity.
Qed.

Lemma prime_69_2596 : prime 426632512014427833817.
Proof.
  apply (pocklington 426632512014427833817 (fun x => x mod 426632512014427833817) ((23314383343543, 53960818949260564656, 62814440624553491211, -7944820337147634212) :: nil)).
  - reflexivity.
  - exact (mod_red 426632512014427833817 ltac:(discriminate)).
  - cbn [map factor fst]. repeat (apply Forall_cons; [first [exact prime_45_1260]|]). apply Forall_nil.
  - vm_compute. reflexivity.
  - vm_compute. reflexivity.
Qed.

Lemma prime_91_7588 : prime 1495199339761412565498084319.
Proof.
  apply (pocklington 1495199339761412565498084319 (fun x => x mod 1495199339761412565498084319) ((426632512014427833817, 748955878985560809754141107, 166870529054719175605931730, -83586623162170123702427741) :: nil)).
  - reflexivity.
  - exact (mod_red 1495199339761412565498084319 ltac:(discriminate)).
  - cbn [map factor fst]. repeat (apply Forall_cons; [first [exact prime_69_2596]|]). apply Forall_nil.
  - vm_compute. reflexivity.
  - vm_compute. reflexivity.
Qed.

Lemma prime_94_994 : prime 17942392077136950785977011829.
Proof.
  apply (pocklington 17942392077136950785977011829 (fun x => x mod 17942392077136950785977011829) ((1495199339761412565498084319, 4096, 2808564913661730269550980362, -641) :: nil)).
  - reflexivity.
  - exact (mod_red 17942392077136950785977011829 ltac:(discriminate)).
  - cbn [map factor fst]. repeat (apply Forall_cons; [first [exact prime_91_7588]|]). apply Forall_nil.
  - vm_compute. reflexivity.
  - vm_compute. reflexivity.
Qed.

Lemma prime_200_4775 : prime 1059392654943455286185473617842338478315215895509773412096307.
Proof.
  apply (pocklington 1059392654943455286185473617842338478315215895509773412096307 (barrett 1059392654943455286185473617842338478315215895509773412096307 2555884482991228609132439988520369523279559147492156925724019520407 184 236) ((251, 877104234086320007135565618296457582186735222895437327612172, 48007760035020698497080361650380129539786775532907103937551, -39747122466092765937676128213475461003395742201937819776460) :: (17942392077136950785977011829, 504440434508575415233793454227095341708697323304977226437163, -61253801244460512229270634963778382418866605032090269018776, 29166611615507940249107809143498794489576587237476189718859) :: nil)).
  - reflexivity.
  - exact (barrett_ok 1059392654943455286185473617842338478315215895509773412096307 _ _ _ ltac:(discriminate)).
  - cbn [map factor fst]. repeat (apply Forall_cons; [first [exact prime_8_251 | exact prime_94_994]|]). apply Forall_nil.
  - vm_compute. reflexivity.
  - vm_compute. reflexivity.
Qed.

Lemma prime_281_9203 : prime 3055465788140352002733946906144561090641249606160407884365391979704929268480326390471.
Proof.
  apply (pocklington 3055465788140352002733946906144561090641249606160407884365391979704929268480326390471 (barrett 3055465788140352002733946906144561090641249606160407884365391979704929268480326390471 5180599879638247355627628791335856148741655412110395769036889101552445458259570678008512300 265 317) ((1059392654943455286185473617842338478315215895509773412096307, 5563581472304666537367698222031436414809456114137236663142714881049629858689529787, -342969333859439450544882161740982885007617265016806328690438231004015975497845547894, 624499818926266131190057207745591307490013128895444328431333939463617687819110235) :: nil)).
  - reflexivity.
  - exact (barrett_ok 3055465788140352002733946906144561090641249606160407884365391979704929268480326390471 _ _ _ ltac:(discriminate)).
  - cbn [map factor fst]. repeat (apply Forall_cons; [first [exact prime_200_4775]|]). apply Forall_nil.
  - vm_compute. reflexivity.
  - vm_compute. reflexivity.
Qed.

Lemma prime_order_p384 : prime 39402006196394479212279040100143613805079739270465446667946905279627659399113263569398956308152294913554433653942643.
Proof.
  apply (pocklington 39402006196394479212279040100143613805079739270465446667946905279627659399113263569398956308152294913554433653942643 (fun x => fold_red 384 (1388124618062372383947042015309946732620727252194336364173) 39402006196394479212279040100143613805079739270465446667948293404245721771497210611414266254884915640806627990306815 (fold_red 384 (1388124618062372383947042015309946732620727252194336364173) 39402006196394479212279040100143613805079739270465446667948293404245721771497210611414266254884915640806627990306815 (fold_red 384 (1388124618062372383947042015309946732620727252194336364173) 39402006196394479212279040100143613805079739270465446667948293404245721771497210611414266254884915640806627990306815 (x)))) ((3055465788140352002733946906144561090641249606160407884365391979704929268480326390471, 29822700237508349747469333737849467315490036888071260419407979328895365226366607357778169987538289234418614181375749, 6690982755611728604002668186530857022804999950720040049042778753912660326557620697048332797102831257476360889901329, -5064289671453469615417018427446847388711795662866080375390668393231546577084265971532568614178364219213202057489137) :: nil)).
  - reflexivity.
  - intros x. rewrite !(fold_red_ok 39402006196394479212279040100143613805079739270465446667946905279627659399113263569398956308152294913554433653942643 384 (1388124618062372383947042015309946732620727252194336364173) 39402006196394479212279040100143613805079739270465446667948293404245721771497210611414266254884915640806627990306815) by first [discriminate|reflexivity]. reflexivity.
  - cbn [map factor fst]. repeat (apply Forall_cons; [first [exact prime_281_9203]|]). apply Forall_nil.
  - vm_compute. reflexivity.
  - vm_compute. reflexivity.
Qed.

Lemma prime_7_109 : prime 109.
Proof. apply (trial_division 109 10); vm_compute; reflexivity. Qed.

Lemma prime_9_277 : prime 277.
Proof. apply (trial_division 277 16); vm_compute; reflexivity. Qed.

Lemma prime_25_9010 : prime 17391169.
Proof.
  apply (pocklington 17391169 (fun x => x mod 17391169) ((109, 15942011, 5861417, -5373001) :: (277, 1651079, -8686231, 824651) :: nil)).
  - reflexivity.
  - exact (mod_red 17391169 ltac:(discriminate)).
  - cbn [map factor fst]. repeat (apply Forall_cons; [first [exact prime_7_109 | exact prime_9_277]|]). apply Forall_nil.
  - vm_compute. reflexivity.
  - vm_compute. reflexivity.
Qed.

Lemma prime_10_683 : prime 683.
Proof. apply (trial_division 683 26); vm_compute; reflexivity. Qed.

Lemma prime_18_6510 : prime 136601.
Proof.
  apply (pocklington 136601 (fun x => x mod 136601) ((683, 95899, 57734, -40531) :: nil)).
  - reflexivity.
  - exact (mod_red 136601 ltac:(discriminate)).
  - cbn [map factor fst]. repeat (apply Forall_cons; [first [exact prime_10_683]|]). apply Forall_nil.
  - vm_compute. reflexivity.
  - vm_compute. reflexivity.
Qed.

Lemma prime_20_9040 : prime 819607.
Proof.
  apply (pocklington 819607 (fun x => x mod 819607) ((136601, 64, 143106, -11) :: nil)).
  - reflexivity.
  - exact (mod_red 819607 ltac:(discriminate)).
  - cbn [map factor fst]. repeat (apply Forall_cons; [first [exact prime_18_6510]|]). apply Forall_nil.
  - vm_compute. reflexivity.
  - vm_compute. reflexivity.
Qed.

Lemma prime_26_6228 : prime 54094063.
Proof.
  apply (pocklington 54094063 (fun x => x mod 54094063) ((819607, 20355967, -20281340, 7632007) :: nil)).
  - reflexivity.
  - exact (mod_red 54094063 ltac:(discriminate)).
  - cbn [map factor fst]. repeat (apply Forall_cons; [first [exact prime_20_9040]|]). apply Forall_nil.
  - vm_compute. reflexivity.
  - vm_compute. reflexivity.
Qed.

Lemma prime_31_1606 : prime 1839198143.
Proof.
  apply (pocklington 1839198143 (fun x => x mod 1839198143) ((54094063, 627085897, -475088954, 161984495) :: nil)).
  - reflexivity.
  - exact (mod_red 1839198143 ltac:(discriminate)).
  - cbn [map factor fst]. repeat (apply Forall_cons; [first [exact prime_26_6228]|]). apply Forall_nil.
  - vm_compute. reflexivity.
  - vm_compute. reflexivity.
Qed.

Lemma prime_38_6171 : prime 213346984589.
Proof.
  apply (pocklington 213346984589 (fun x => x mod 213346984589) ((1839198143, 190641103850, 36331727501, -32465050532) :: nil)).
  - reflexivity.
  - exact (mod_red 213346984589 ltac:(discriminate)).
  - cbn [map factor fst]. repeat (apply Forall_cons; [first [exact prime_31_1606]|]). apply Forall_nil.
  - vm_compute. reflexivity.
  - vm_compute. reflexivity.
Qed.

Lemma prime_39_2336 : prime 426693969179.
Proof.
  apply (pocklington 426693969179 (fun x => x mod 426693969179) ((213346984589, 4, 142231323060, -1) :: nil)).
  - reflexivity.
  - exact (mod_red 426693969179 ltac:(discriminate)).
  - cbn [map factor fst]. repeat (apply Forall_cons; [first [exact prime_38_6171]|]). apply Forall_nil.
  - vm_compute. reflexivity.
  - vm_compute. reflexivity.
Qed.

Lemma prime_114_2966 : prime 19618612570204696198749637002339899.
Proof.
  apply (pocklington 19618612570204696198749637002339899 (barrett 19618612570204696198749637002339899 23055292364058701510172072881011846702468 98 150) ((17391169, 6260329189422728378924414780812250, 1871471120716701917051734317916271, -597189288603306833480353575844322) :: (426693969179, 19417552694427266363507754916136674, -9707818895671691460079479351926641, 9608329043662591349892544064834006) :: nil)).
  - reflexivity.
  - exact (barrett_ok 19618612570204696198749637002339899 _ _ _ ltac:(discriminate)).
  - cbn [map factor fst]. repeat (apply Forall_cons; [first [exact prime_25_9010 | exact prime_39_2336]|]). apply Forall_nil.
  - vm_compute. reflexivity.
  - vm_compute. reflexivity.
Qed.

Lemma prime_199_4471 : prime 522996831121946918645574135122861461946031791899402247158739.
Proof.
  apply (pocklington 522996831121946918645574135122861461946031791899402247158739 (barrett 522996831121946918645574135122861461946031791899402247158739 1294312454224750646279656351451876526230645350447033079939140266471 183 235) ((19618612570204696198749637002339899, 151038885931465319408280795427883636715493899043337547808514, -129226159973139867525742421399428102480909944514877537929149, 37319872844494001184094135165820229750017136117329286965642) :: nil)).
  - reflexivity.
  - exact (barrett_ok 522996831121946918645574135122861461946031791899402247158739 _ _ _ ltac:(discriminate)).
  - cbn [map factor fst]. repeat (apply Forall_cons; [first [exact prime_114_2966]|]). apply Forall_nil.
  - vm_compute. reflexivity.
  - vm_compute. reflexivity.
Qed.

Definition moves_361 : list move := [
  Double 0x9850869c679f3ee63365eff99504ed3b30129b98bd50cc2574560cd62ca3c9567c66d95082864d8250cc6d4ce9;
  Double 0x12d4ac683f1485cb09cb5e691bd2be3308339c2bb595de7cbacde405c744a5c8b315073c8cf4fb68499b37835a5;
  Plus 0 0x664e2930ef818bb09e89cbfafc8873622fb0071b3e18d59ac6b359369aeda94a0ca228322a209b205547190202;
  Double 0x175af1852e2edf265bd63a92f968347924a6e3f9d55ef3fb57680fce4b42ddece95d84c24dd0d0ab3f8b82ad3ac;
  Double 0x381137cfdfa230deb5231c10ac0db527d00fb8b8733b30164901a1a7d7a2676696e7dea70560c4b013f26778ac;
  Double 0x1644f393ec112bec5054129783afd6000437ec69a386e2aade167040a408aa23e0b557ef5a4839fb313d860ac8b;
  Plus 0 0x16fcb4c0d1616ab54bd954f6476be7a8b27e59125c4d1ccfe7c699fd317945b29456674a238d1bd08ac5a9d65b5;
  Double 0x1459fbc4675df6365955cb07c711a6046eeac4f64ab03baa086965b56de568f8458d2d19c42a776ae42aef0d146;
  Plus 0 0xa6ceac51db5d03eb76e0557abf3b045e6f8e9ec2dda3f1dce806064c1ef8960dc37138763e5879d661cca502da;
  Double 0xb709bc8c5592e992161d13897ff0aa08ba13a0a98db7ebc802793b7c5d79e6d9d9dfa1170f47171fd7002ea951;
  Double 0x1230ac1304c8e88f5a9751d7842404bb41e83e85fa46eb5526c58eb9604c8fdb1bc0a4c56bf6b12f9ecdf48cff9;
  Plus 0 0xc4fee5ec659a95a7d99e3e62e38f4581abe5a503602177a8418fba00649cb1a1615265c2527f8444083595ab76;
  Double 0x45b28eec735d245697412e70814261c339f385bb5fcec6b628ed93412501fbcec429d82c42ede23e6e24a344;
  Double 0x13c0e8e72f4193ca946e39c39dbc47fa3768d469e9cfc1024299ba87e59ee8b2292602db3048e6c5424ad8c47f4;
  Plus 0 0x1829f9cc3011cd404b38f519b1455a06d4595e2370c73aefcccd28135c99db528dfbcee56334e83accce23f5619;
  Double 0x212c61f42099bc3860766a464651fff37b6ce441f37c22cc8d658fbc816e0e9af51191db065c929fa88e999c26;
  Double 0x128bd2dccb2709ba688a3d89b56cef91fc8b6c832185a73563fedb2ee247fc15d148eff91f814026587d4c866da;
  Double 0xaa50e26333b3b42bee0ac4671e290b717d80994db4d7c45c66b05e5d940849d74855f108392aaa06ac439e1baf;
  Double 0x178352b17ac5acac2156e1eb53d3170a917c4b5090bb41940c90678b24af5b256b870f293a89b881e48521c2247;
  Plus 0 0x2b46f4fc9837476966fa5da73f8632c776daf99e28e21eaa617dfb732766b45673d70b8dc23d333eec79a9c620;
  Double 0x82f656c6d09e1ef6b4a52a4b4310c9b3f376e9222dbc4212379c11afd4dc810abb64455f68c4405357ac70220b;
  Double 0x12b78f2a92b1910afd7197f71a53d0ce04482888aabf94853a3e4eaa1e9a2b1d23264c125e1647b4e0d659645db;
  Plus 0 0x813925ef591ffca3dccea29f1f703822259d5c54b892bc697fa4840f27e4edd949d9d8a51dbfb290ded70f07b9;
  Double 0xf472c9c309a6628fc33c5a0ff23a00c9692f7bfe194353b1963157b163b724964b89859c9baebc95e77f812a16;
  Plus 0 0xdaf2d3d37ebe345375c7984f657afda46b2c61ca1c91b3fdc9b29ed5e23a0380215810694bd757bec3ea57f48f;
  Double 0x27bc223f8ed2b96364e331f60f43880913d6d492430c0be7bc46b15036629b3888d882e298004dbe34b862b664;
  Plus 0 0x15927925782230dae5cdff1118764da50cc5c514e1894245d38f8bd3b97285891284c8e55a5b192af484b2670a1;
  Double 0x125941ff6d25b82240a4c71c7413b6b54f104aae6edadc10fa40314c4e4a9648baea0beb04cbd06bff0a99fff96;
  Double 0x8c6c1c937ac3b1766021bd1339fc914b3939fe6f0a86b460ac3d883366a911dac586f009b792532ce531c674e4;
  Plus 0 0x2ab5de2ac170d8628a420651b4d4c6c1a1d13725077dad886456ba50ec7f2f8a0649c58662b2b5514d6f6a7af8;
  Double 0x880301add8f82fbdf72f721b24667faca408eba61e8f5875e8c7141b70d7b71d3bd6b33f3afc391455d979a0b7;
  Double 0x21cd804909dea62939d889ff6c8503eb1e2767b115b2641ca83286df65035a1c3a8441cb7e5814363b0d4b1bd3;
  Plus 0 0x20402a20b726816b331b9a9420a13f13d622af2af193c4ab0eda89a24eab9699221dc783327dc5f4d51616167c;
  Double 0xe8dce26c3d8b226a32d14c16e5689c3b762478dbc03a5c94813bef204bda5abdfa3b1d79cfdf7d585d91c46d54;
  Plus 0 0x1146b7d654043bb03dd5ee192383f8353a5736a6a1d13432b8b94a8692e62af07fa86ed4532a520d52f7fbef89e;
  Double 0x14ce06655233eee84e7a149bf9cb1bbf47bc425a0b937e56da6b4d4396f63d108fcb28104b5a458e2eb23e420bf;
  Double 0x10d23542be3ff7c9cbd796c7f86db5904c7d7660a60e72a295cca71df2189a9312042cacaedfbf86772fadebfa4;
  Plus 0 0x17a9287a1de7119f8b45fb7d89f0b1903a1575a63db53c88b9922474c4f6d88a284230d9c4c108c01479cf2c30b;
  Double 0x180cc7fc052684cb922b925256affc2b09b5fa43ec9b7d867e7236689c60c7c70efc05f9fa479c3327a1d988467;
  Plus 0 0x14fee0b7b652eecb60783868f2251e565d14fe7d96cf0063fb53e8714ad20589c1c7437b241b9231cd654316f74;
  Double 0xcc8936a539e32f8881f1553d0ceb71c9705c80fc66a713326ed2e76f0b05ca4722cd26af4b8a86ee184e1ddd6;
  Double 0x19dcfa86d6fa0e20352cedf3379b34ec8a825f57f9b9df28fda2f38135a3a629f8f7039c23872c9048251dec86;
  Double 0x9ddef896db0fb58b4a5a8a38c340686b495771e0e2ea132816dc11844a5f86189437faa8cd98ea0f78815a8b17;
  Double 0x7de210c47157aae0124778f497c691a69a0ad7d211d8cf2da44b0af98edd44ec5695f23565734b1faeba184ee;
  Plus 0 0x1854fa4d673d445709d29fefdc1987ad0d49f957e0a5bc240e1ab2a1acf1c62f9887a88cfb675be81eb76e5f422;
  Double 0x15db1f07fb2621ab39de7f82ecc54ffb49a5eab00ca5f9dcd5ee3a4e901c877aad3cff992069bc3ee1a013bc5f3;
  Plus 0 0x16ec7c4245ddbc69c7aa17af32cb20e66b195d28e7fa7a5880c43b6d68df7e6dae9572f3484c6f4bf41571aa212;
  Double 0x3a07bbbe7cb95437a8bf50b0b6d1615657f05d921021b234c267f06cd5b2107ebd31b9230910448086b5884eab;
  Double 0x7131a4902565e8e1ea110d3181f2432f56d7a7c33354bad9a012139c94f9e286e81825dc916c5bf08083b4bb6a;
  Plus 0 0xdd008d400a27d522eeea5a6d9bc648b478a0df00c1fdf10aeaf598f856e5a9a8b4b9ff684a3fc0bc7cee08c1f2;
  Double 0x128e633f59f737f5b970bda829e41d11b014951a2f138058e0968e56ce050bf1ef714245ff0776d9a9d384c9f9;
  Plus 0 0xa51a79670cdfda601ff37bf9e85927e95b032b35efcd9a0addd0166f63d2f60952552ff1d1505e30b76d6a2e6c;
  Double 0x6625cd9f5feb6e204296f047524fc951afc0fec3d1d2323631e208356d2f12c8aed6d16b94dd8790409d9aab64;
  Double 0xc0c08ccfbd2fe8745671cffc581f5f6363c486e418a02ec21478870033a19a846b50ed49fa671812eac718f189;
  Plus 0 0x59d48688b2ee86eed5d29b2366af770d07949eafb47609dff28dc1e2750c0c518be207a69cf06b98d97bba009e;
  Double 0x812ff42b653194cf9d73df1c1e7f423cbe9150ec34d467673bf2e05382406b6ea37e98be801262c8af50f3f12d;
  Plus 0 0x15085b7a242206af1032d9a15a6a4bb9526338dcbdc8b4174f365ab70ae6d49d6b3827745d07a54e439eb3457e1;
  Double 0x165dd3731bb25312748da0800e1c47a2be0471fe3d075ee4b915ce89c2ce161cf98ce2772d165ea4b9feca45909;
  Double 0x8fc4b4ae9cdd1a61f3f4b9186d221bf3d8125303221fe97662698f4a2827087e150c1fa9ec9657a5297224f736;
  Double 0x93d42196b64632f3b3d0397c565c89a7ca2f66f594148f3fdd397be9d1f53c2d67a629d8e36d400ffbadc9f4ec;
  Plus 0 0x11ef36ba57e66ef6aa88b7a31a58752d850a051482e8f07dcce646bf005652cd3a0dec999b1981d0f65a02d551d;
  Double 0xd70f6041eef55a7251228316c8e59ec292c92484f01805df9b80dd56747368b8a0d1d7bf05c4d1ab6fcba85d8b;
  Plus 0 0xa98cdc73bf27b69fba30897940cc2c478aedd12fabee9fad3f24ba2f2b6323a812b3fc29d4d01a5e28e982ddf;
  Double 0x46d547432ced2e01cf0054ddf60a99d1f6b491cab6044dc39d9e7eb0fd16fae1f781db8b7c2128b982419e428c;
  Plus 0 0x3371509bd730e762c65e0a6e8ab7a29a6db3beca95f877e2d136eea453591b05f332e93a8b6a7ce0f8abd14909;
  Double 0x15b82e2d7ef76c473ea23315c39971eb08984b355f660810d50fbeee8e9cd4266ad7afda233ffe899b3e17dc25c;
  Plus 0 0x8bae06200b76fa074dd80427ba5815af9b10cbe5fde311e6cc170b9ad38a5b784b929774a54afb6eef943c2ff2;
  Double 0x2b290f13d6c2c6458bd35d34c7719023bbdb27f5c7944cd81af550e06c88dbba75eb2e63a576fc3ee56943bb46;
  Double 0x262f9537c66b695a8f551aa4316b0fdc0cdb01a88ee68a35844927b297e9c6171fa746f3862294431104036551;
  Double 0x128ac432b678583b49cd3d4eacd179ea62d11d2c900c03e807c5493f7b53e2265fb1259e588e9467f8656f79838;
  Plus 0 0x93fefb552d10c82846ef1724830fb21d8f5101cf6180877aeee0babda1af69f977e5d8956073aa0d4ccf9c834d;
  Double 0x7a971bfb0cc98ed25d544c2319479af6fe164f92ce5201bf0c2fe3f69221be136a32679bfb6306b98382f47af1;
  Double 0x1852ff5d55bc1f1cfaeeba51c9ffa759976ae4ad626815716d553fc5d6a7a13cd28089522a4ea030e6403449391;
  Double 0x96ff89faff7c310a38793475003834e0123b88a11c23e9d43384d7b567ca91d258aa13c18222751ad98fcf340;
  Plus 0 0x1d997518cd6eb602dd84d20710a58ba50cc1d28c712c01087585542a9fe36dabee1736414a8c6409a38b889d68;
  Double 0xca0e401f055a5f4e2b6abaa05751e04ffe82988db584eb64255548f8b9b6b446f0ea650c1cf18d2b873b6857a;
  Plus 0 0xed62ad1aa21ac52f46b541e3cc2ccf662e0d89459bd48db619a73dbbfbbcb487a789152227d3f433342864bc27;
  Double 0x10fda1de2f8ed4ad534e7453b62618204d741fc861da4553f809b3d5b0df65805b3de27d5ef9734ef8746a3ec09;
  Plus 0 0xac83561b1a5ceafc6f1f0bceda7dd4e3e37d175b920a55d1f7e53f0371e4b9da55e5cdcc514bc5fa59d895ee80;
  Double 0x1247f3e48e0774d1432f6e18539099a266cd08b063b09f12ffcda194d1df85ef30d7d7ce7514db22291c3f88e30;
  Plus 0 0x1489a9742bbd912ecca7361722471c9c3bcb9df6878676f26db8fb6b3ece3e913d7eefc20079d4f296e32c7e7c5;
  Double 0x7871deafedda44bd8a89933ac960af893527e3b25b5f50a183b20e985d70f4be290169ca6e9e9d5ee1655db3de;
  Double 0x40e960d5599ef84c1ce2c5c6e394c0fb3dec1c56dc75aaa106a4f8e59e5e09898ddd7ffc4f865dc12ee8c7289f;
  Plus 0 0x1b3515b04193de09a80f941a35e729d8b389200b0e7231ee9b33977223a415233922d87e945b08005584d36023;
  Double 0x96adb8708e4a5dbf27ab1e61f57b75787884a9f2ae701b7954a6065290dfeda34693ff6b076b2f86d12a91c7cd;
  Double 0x135150e261231ba06239bd5b5fa683063fd094c70198800e3a085c422dff23f4dcd33d504ee26788dd8f4877e2f;
  Double 0x17c64a0714eff4fa0bb6d2bc111ca9808a451063c8518c44150e827f0884e0a73653269eb2abb3077fb4846b823;
  Plus 0 0x15a78d2fbcd278288d10d134fe632ee187efc6c2b4ce9174cec2d20cc9e7ecca87e25dfa29a9d84dd023a4da52e;
  Double 0x7e82f79b69f408f9f067d095df6c1f6769c77aa1204edcdf4807a0f1254381f533d0ea52d29aae225687326158;
  Plus 0 0xac2e32f963cb91fcb379c64f4dee1b32c38364b2a62e7c30a8334a567bdc73e3f1f9a5496b51edcd9d73194a6;
  Double 0x138b0cda3558a29700b58c5a937ff8a7cfbcb636c3344b4e82e207d79c176b6aa59d5546242cf7a55272423bb31;
  Double 0x725950a83048cd0d15389aac35364ec7741f0e20e7a4863ed68690ed89912185c617e9123395c4c42d853e54c9;
  Double 0xd6544687773f28e6ac3381b74dd9d796fd5ae2c02213eb62d5060d6f58287118960f1c77c2994d612ad76b8c55;
  Plus 0 0x8b76ff7ce1cd934edb5a9e7653227fda7524bb1fa553c93cc36416eb0a49cc09a944ea7c0f5c8cb7f4a68af96d;
  Double 0x9731296ee9619f23a5036a5aedb2372df2217ba401f703e8c4d0a4305044ac92d99836547fa44644bea1f590d8;
  Plus 0 0x16fcd1861db984b780cc10893907495e521b9b8329377ee8909dd3b785f7be315e4127d53efa19b118522205a80;
  Double 0x544eeaa4b0a99ce3a3b7d01bc74680e2bc900fa0d06200a1710a24c7500e4e839597f725d6cfbb7ee198c0d89c;
  Plus 0 0x41f939a47d496512823f7040b5e86edb34a398426af5d95819499d5898625acd91ef2eec6a178dfff85eeb0237;
  Double 0xa6d8b500240af6fcbaa6e4ea83060b690fbd5aed1a62c07d2898f3ca29cbbf7bc952822aa94eee85c51df18e11;
  Plus 0 0xf692dcddd75ace692262b12175d27e9ebddf6554ba2a9b13bf1a5a89255d008f59e9f19acf2f52d18206f5fa33;
  Double 0x2408ec05e8418d40079f341b0827d8183f558c44f06f8319c9115d42c9ccb1ec1bd19df6afaf90780f076cd2a5;
  Double 0x77c7d0142049519a58555f428e52034ed0a432adb1b3f3197ecdfa54e78662dd84617ebcf5031d7e7691e4746f;
  Plus 0 0x1a4a171e2f2827e16e0e67a5bf93e05fe89a7e6a739c40de1273332baac182a9088bcfc05cf3d6a653c80ac20b;
  Double 0x16f05103327c45cff185bc9a11c978b85f6d97a5b9fd3e959b763d6ed65ab16f115d3c32db4c3fa776d4d179468;
  Double 0x39de8b0e515a75032b5dcf65249a6a9b05e1743513ec464905fb616cfb4841b9fc1bd612a8710939f1b34ad974;
  Double 0xac87f43d831d6c384c655c75e1833b79c3c0c284e579775a24aed800f9c7c0f168da6ed41c84cba4c01641eb1;
  Double 0x18a307f9164b48922bdccf9e35abbc6390e2b84d5922409dc1ad5431c94202591bff1dddb481346f5a52b04be6d;
  Double 0x31a64a63bfa8d156037c9ab21a1aa7bdb1d6c43cb40ce00d2c8122c59a7ec0acf3180ad1871823b13cfb8e33b7;
  Double 0x17fedcee16cf077aab0574fd970fdfa901b1866e8e739a43ea9a513970fe86e8c3581858c9e2a4353f79e33aeea;
  Plus 0 0x9dd299489ad57ef6a91c7132bdb07ec38754e014c6406e21d10a609b7b0ec16dacb974e55503535a76b3717fbd;
  Double 0x16de32fdfbfac7924fd8ea13fa54230380a0f5820a0a08e083e5861267af1a8cc5f02e0abe99962d5c2228585d5;
  Plus 0 0xdb9947a600182516316fd1a8c8ab382ee550da4ff44405eee67c3d7ec278b12997fa99803e40a30af25d830919;
  Double 0x157f6393b9d9a909cb40176d9b0e575519a5bee171e5c09d31bda8adf9ac9b3f6c64da8b9cfcc8020ec937e0347;
  Plus 0 0x31ea13ff69c99e310c3c47ab7696103f5f169e6fd70acc3e9d059fb862381237f49fcf7973cf11dfd90bf3bde;
  Double 0x79e7402a44cfe65f8f32f4c5a4bd19e83ad2d83ee7484d5c5e76966e11f419f478573fc65b7dffedaed0c1b51d;
  Plus 0 0x147d81600c2c894d52ce3311f4c30c29d5af9d9ece613d1eca14e29ef7bf44201f0cb778976e672285b33b4afc7;
  Double 0x16c092614aba307026ab5ccdf380205136e6d5aae5fc076df6c649be0f1f0d5f47bb92336aacfd0ed5970bd55ad;
  Plus 0 0xc7b359ae33d094da334e4b786cc1ab27faea871dd198d60277ee9af0efdd1fcb57078741725cb82dade9d267ee;
  Double 0xd458672e509e5ee4e1226eaf3ca58de6cac98957f5d576496ed5398c44062a07743bc6874ffb3c0e6feaa5d6c5;
  Double 0x14297cdd66e538753623c7219182d0fada41f64e0506806d3a5cb36994ffb1efdecf5a5083d3058e7fcf66c0fc4;
  Double 0x31577bc8334f72c981d0c758037867256be405be2002475bbaa5f62946f4f0b308751c4959c0986f94ceaa32d4;
  Double 0x3dfd9ab20924a81c42d87144311f7bd2a19778b69ed399cf9606fca4ef3078bce3e897d66d918b973ab956dc35;
  Double 0x9da51051f4bf8d1ed7131b7ddd79b8e6078088800181d4714b9e866fd428ddd5cfb030cde32dd2c705c320de95;
  Double 0xef52e97abd2d7b45d2f1efb469122af3187563003aff6a31c71be05bc1eae6a3a51758511470e9aa820a7decf8;
  Plus 0 0x89b94e46e27bfc32f86c5a1af3edc8bb3c70093fa98391e5b7b8b627225e2a145c5fc0a82ffd1a79a09d8d8fcb;
  Double 0xfa02c6143765ac7dd760f99aa223e6658fd057f0963ca148902a2da77afe59d4bc08f6484b12765f1a8fae89f9;
  Plus 0 0x184668a66618c0bdcee754e99d1d2855b6aaceeb3c84c5e287eda8d9e3e77daea5b814666800fcf060f2fdf2b4e;
  Double 0x1255511415240a619a2410c05476724f49135ff47251bdc5a9db0954cb0e12bb473718aa7c0d5c5e16d3d8db145;
  Plus 0 0xba8aa19e5dccd2c339e3f19b8dad27d811aefea888781d1c18395aff2b1990b9d11db65388f137d98b8a0daa11;
  Double 0x213cd0c7064b0b2ad03a56f4c72b8efba6ebd984037d38b21723cd2ae8cb38216ef3a8f9e33213e63ef3b87e79;
  Double 0x16a29716a9dd0e5660ea397c3cbf72e72cee6b8ca913105c47122e7886fa7d4e9db3fc659de929172b3d9435e48;
  Plus 0 0x17ef87e1937e72750fb72b62564de35cc07aebef8a022dd5aa44bfbf121a9508740e833c05cd896b857a5f5d9a1;
  Double 0x17fa80aa72c47592031cccb36ea035b2898e772d6e4efcfe38756ef22a8c25e395827c99e090e7ce2bbcdffd52c;
  Plus 0 0xeae8bf31ddbe1a95e4415418fcedcaa102b6be4d1653f10c6c5e528a4b32c34f8398d6a4ac51f5f71feefe05e9;
  Double 0x328e3d46c960c6a943a1057211c9f06709bad7b05cf12294adf6398f2b823d1e8b466846f1763682419114b9de;
  Plus 0 0x11628566430c010cd7476cdb1c838cf691a3eaf97707699e415ba80b4b16b74c23dafa8e27da62e590f2f055944;
  Double 0xfcdf103faaf67abc82f6eb91962eda17420483c2afcf50a29e6464b8557916e2e373a2b2c20748926b23f378de;
  Double 0x944636237b717b652cb93fe0413986e9b9861a06f587f2841bf83261e23e2dad3fee96ff2cbfa507f448e5b960;
  Plus 0 0x186d1781c79ae57bc0a6f454fb6dae94e672c92a37aa09e5682028e82ab64537ac89ef3b0e6d22b2cca5245e051;
  Double 0x16ac268ece2ee17bb0846d7b7ec3bc52d719fcd1a314086e2a44c29cbdbd35329f3e8a46f1002a6e2182641dfa9;
  Plus 0 0xa75245625d9406e41f25d051d093cdb46d76f2f13dbe6010fcf0bee6c8105ef068f0fd369bbecf29b06f14dd2c;
  Double 0x166bb539b570997dc8799f8139304870ae7b3a074c99c6b382e5fae6567dbe1c91dfc408782a248d6c6a1700287;
  Double 0x13d51b4fef3c2644e0d46261a29bf0d9ab48358319b4aa081b4bdd3c6b12ff836690e609ac2a188784e90882937;
  Plus 0 0x47ad294baf21662c855b7e76e0e276a1fe4860bb173dcf88376cec220132ae8c85aac8252a711a394a081046b7;
  Double 0x10151c1f92e2ce54e7c5596a9d75b37d786a0eef9b93b66911cbd53c54d13e84a3e84611cae5e5dcecf4242ffb9;
  Double 0x11cc0d3721721ab4e03f74724f4a378796fe1a4a6bf5c4f504b039e02f2f7b950b8f973d2ded989136d3ce4b643;
  Plus 0 0x10e7415c8a3691b00ecc6348f740307d454dba3c91844f5a16e10e4478c3a8699e3c6dda2198fb75aeb4cb2f5b8;
  Double 0xc0b039b1b6f0419c6f9540fd0775334ed368cefd69352c1d073413ab0ac0b009d65054e4bbf8e903f6e1ba09c4;
  Plus 0 0xedf3330c40acfa8fd74b8b477c7010ca241c80d188d6816eeccc60fa62f23e6f3e473557c957018a1a64ff9899;
  Double 0xb98335feba510326f96cff5324f2a6c8c8d9b38ab0d7c910e07ce40ba7f022eeceec3baff611cb5e3ed3c71d48;
  Plus 0 0xf584348714f010489265cd98dea6b7aa4ab2e2fbcff8383b1c11019592ce7bb39eceb3fc7db7255ef5a4adc91b;
  Double 0xa8446a1f1765279bb21d8b6f71511a88caec685e4db413917108ebc6de560323a5bf5553a57151fe7040bb9950;
  Double 0x6b3059ea0303bb6254d95edd493c7aa72686c1cf3c435d50014a0ef5ea49161e32f6c15449d50da3689285ba14;
  Plus 0 0xb159c11bb6bb2dff5efa587a89e86ce9e3f8e1a81a25f86454c7d258914bfcd9d38f574c1134e03d18751df67e;
  Double 0x1c127b2c83a85595e16091f62ba980f38fc0f61b2de6b3ed1e5440b314fceaa60fc49adc8cd3a97f825db6293a;
  Plus 0 0x17c518aa0497303948870d0e173db35c1ac79ba8d956a64bee774e6291806015c369e9a01c0bf3bacaa679dce8;
  Double 0x12c470f9bb519dd442410130b41600655c16fdddc6e19ac41667c129840e476c35ea1e0472db7552b82eecc23d7;
  Plus 0 0xeaf0ad83f4fa8277ee1a119e9748e1cdc352eeed062314f47f020b417d49f4fae8e789ca7ac3bb97702fc87ef0;
  Double 0x15e9d0f5339d8ea11d973c7b607603ec687152c59ef5d005d981086440cfadcf0d685b13e055bb7012e7ca5fc0e;
  Plus 0 0xa33f39f25588343f98a6607b63598229eb6fc2d7beb71fe07091f05031980f606309d626db104d22fd690af252;
  Double 0x68b423c96623b52245fa46abf530e35585809afa2647460a805e48b467ad4450011fcd17562bad565b97772f82;
  Double 0xab7822f3f7098a790acbcfe97e4718dcfd2bdc767d3f66472e363b64ba9e37350abd58e74ef893f65be83e087b;
  Double 0x5495243c3a4878e5aabab9d8e4df52d929410e57179fa3ab4541f05560df6663013f7484af0e18336a966c7a7a;
  Double 0x1363de30cc90b966eb9930a6bfc4d03e814770c1cc5e1275bc5236b53f7e09492ef715aa211db70484a9431e3a6;
  Plus 0 0x706677bcf7054c5aacf3935f2ebb13891d2a34761dfed4d4563a2fac1e8596a8808f2f7fd7640e50f54388cd5;
  Double 0x7a75bc8c79ec4824d607b9e2c5b6c6410dc8ae3b3582fd539075f15c09bb83942ec354060b94b83db0f9430cf1;
  Double 0x9f2eff3dda26116c22e2989ca7b6bdcada72edffb624ec496b22bdc72ff565285845b22dc3e6e6f366e938dae5;
  Double 0x84daf607035b78b4f6be71e659a66cc21904300bcfc805fa8202f2ba4103b615d7c94c81b2a433ee86157d5a82;
  Plus 0 0xea37d2350e43042f8355de455232e5c91f3d7a7472b76423460f46c163f768717921016d778a5f3906a87b4513;
  Double 0x17c7b2c47296924285da56ea08ffcbc389fbf5159a1d940e55a1a76076172298027962fc12a82e7cdff35e8fbef;
  Double 0x16beeb6152d830109c2008860c2bd8fe3b0bf9b31f01e1e3e5fd0087f234b79795450654807b44ac940cd52a577;
  Plus 0 0xd4c1302858f9a7661cefac9cfa32c2bbe6c1a8ff871124c5bbe53009dd71cac53c964a59adc109ca4ff6279e74;
  Double 0x12a220dc06aefacfc32187101ac5dd0b57c98ef36e75fd4b889c0d3373a64ea435a0bb60a89703b4367a27d1b1b;
  Plus 0 0x141868ca5310de619653ecaa0ba55af2605996aa2071b785103c39d738ac9b4fe150ddfbc2a8f9c9e1bf22001a6;
  Double 0x152c41919d32a78858d52ce3f5f4b57f60b771e2ca18caaf9b651758d8a1e57b6db2522b7e5f8312cb4b004f321;
  Plus 0 0xe1107d566faa4f0b44d4b5079a7fe1986cb0bbd6973baf7f91f35a1f9653b3320c4c9f3325e9369efc15ecca8;
  Double 0x57dfbe2a807cea87f851f9f14c539384e39bdd505958aea601718e15e864674aecd302f0bcd45820c0457ca057;
  Double 0xbbd5a85988aa2d43561e7716f82e103858b5d5d5875ecbeec730b61f43c04aa9992a3b8ca165f8fd6d1f185517;
  Plus 0 0x108238c51ed0cda2ceed997296b6f9c36ab037e2146f82ebec348eb3b3e16e54cda16ef6910fd0c7c114278c1ee;
  Double 0xa83a842ddf185c8e9be9067f85c9e00955bba6d46291b7d9b6ec0685523e814a38090c89c82c0f9aa582b2532a;
  Plus 0 0x12ff692ea7351649fd27deae6c58aabc52f90636204e6e418f37c5247c2d1f954a4d9d78643c93c45bb6392f87b;
  Double 0xc95623c9511439c4bb7455fbdf03a64b539bd6dbf73b788c969184aec6c41786546e0f5c2c192612b538ca7670;
  Double 0x301283712edc9fa2f0333efdd28cca5b18f6977d0192999ec3331667695307d59c6788599235063938b3dec13b;
  Plus 0 0x1454d0e84218a9d06df88e77bbe2e8ace293de9ae089d9b7a927883a8457cf49f4be571498a25013dd401c882ed;
  Double 0x3f0593e52a32f76e0e72444ad3ad65a1385525223c00c3bfb8bf15e24956496bf0b3888054b81f634de425ca3e;
  Double 0x242a072f68ad618e8ad92adb06056634f4cf9cd62e314fdc99ce176451faf208078ff00d45ff4ae70695430330;
  Double 0x122fd64519d56cd47b84eb2ab7987d312bbc455acc580023bff9d116d6124d0048ecc576ea8b80c8b1fb29e3556;
  Plus 0 0xa66e18e923690183114c22eb5af3f557bf9babc99d5a65d3654630239e90029074593954850648140d6be14091;
  Double 0x7916f44644d999d99e993c061c0856ca519b09bf178a42506f6cff2913e3c8f3602a1963cadc19425605931310;
  Plus 0 0xb23e48a9414981a141965db63e6ca2911fd2f8ec847e5995ea951d957eb72053f1b8c0da3fc5aa686496306940;
  Double 0x3a103f6cae0419ac7c11e30a7b229344b06828b3e4c4cf4259f798a097efe37dd77d73ef00706335f073f3ae3a;
  Double 0x1767826a7d59bd27c4874c48d38cd92cf7b6df896f9602d6c37c280db857b5897f78efde90fd4b109123dbb399;
  Plus 0 0x5d09a32b4b85d0470a6b37d87dc680c3717b4ae0d9c11b77bdf2f77a38866970e59f733cbe7cb3be5a569c549c;
  Double 0x5a9b9ad4d47dfd380ea13785fda8967e61989a2d1da3bedb7fd214321775137c0e7abb57d893e7099261731df1;
  Double 0x499afd5d10ec07a8a7ecdbc4f2a6ebc0c15fa8132bce7f2f9942e7f81ca085073d527e8b8585e5f39503172f8a;
  Double 0x146b38595091d9812422d5519944d0703220dff523e6694da463f79a32c22f1c8483a0f71bead3070ea0602efcb;
  Plus 0 0x5f368ad1dd2d757c531a8004379f950513906d5a923ebfb9f29b1cb39df7874216bcc95f0b73baa4e3d38d701f;
  Double 0x54beee4dde0dabcdec2543dbf07bd49eb61bc8f151f479371f1361c0cd16d15c44b9f13ae5974daa74a60ab3c4;
  Plus 0 0x1389fb297991d66757694ddf79542330ea3cef338b97fe6f19d06772594225528d9fe9ad0d64f682e3fe899679e;
  Double 0x5c267238c387d5b7c781f7e4fa0ff601d43d48bb325885fe290c0ce0978494a025458bb29a41d51b47c7958d1f;
  Plus 0 0x1080f0154e9431a03e7ec2db35d24332f877116b67ff4a4312744bb662e1e1b57c723670ba1db995e1ad039434f;
  Double 0x17c77e3a1a052bafc3645a6310f38969e1e242e293ca18c156edd48f8f58503d3c7623149c1cb65f1e9bd548380;
  Plus 0 0xcf8ae4c4e48e12fd38da3788cca4bc918a21c5f559e3c54e4076409fb687c079e6d7c36232febafdbdee9ebbef;
  Double 0xda123372650fc0ba269491cd2dd967c075db18d87ae14f417b754c48ac12a0662455b9093349e1a61cff3a8e65;
  Double 0x9607162bd9f0ba6b0260831620b0da6b221c1ab251d702325d281de634d0b60c8814fff0fbec3d27b37f51a318;
  Double 0xd777f32e8183b0e8b7e545b32725f6cd6d698185dddb2e75301d7868226e9f8c8d8d40aa5a6132a30d1bd9d90f;
  Plus 0 0xd1c0fc39827a7c8b6e4e883711ffc517db3820e8d722375efa362a2118c80d60302b60cfb32dcdfd925649de06;
  Double 0x187bb9c00c28091ccf603d3161b7e4c9c57e21c8a5a1cd016ac3eab5940655dd88a5d37add0a4032722c88ea5ab;
  Double 0x241f50154fe5bb392f237791a9fb8eae9d9213abd4b8de66b599ed9e04ef2fb9d2a1a0037a3a184978b37ea42d;
  Plus 0 0xd7b5a0a293c56efa6cecf8c485a648567bf2dd1dff244b2d4a16e5d94c4c955118265fa413e493ef4b0338e976;
  Double 0xfa8fe9e3e7fd7bc6b10391b2c98ba0992a3c7c9abe7cfde8e17c70cdd15e9228e4318c3ad6bfad1b213b48dfd0;
  Plus 0 0x1868588957193e6b18e7c531f3e5827cdc80dfd04706878432c8b459fc22f8d91830aa9a6df45f5ed1ae1a6c61f;
  Double 0x39b870223610d99a4b086f47b0bca099f2426258157a36b3a91efedbade16c25cdaec7324e77f94e2fe62a9098;
  Double 0x105fff531a69eee885a4c422b075008543774fe00a7f7033b9e869e3a18ce7d36b1d96805d0bc326575eb2aa62b;
  Double 0x6010465c83e44802796472465b49ea05ddb7d345fa1ab68a9fbba2cc601c2dad239037a060fccefe0397c5ca6e;
  Plus 0 0x10f222ee629dba94f0f890ee757c78dfb717cba253b0a3798158b0afcb8ca004722645ca7f6ab66731c626bb645;
  Double 0x6f4edaa0b083db2e0193bc9e54be3f49b6279d0270b576de608e6e3707c0dd352b9f3bbb8dc8d37dfe37fb6c1b;
  Double 0x1541d9dfb22ed835ef29c33bef9d32f6249799af98f940c2aadf7257c7d1243a2b51177483478417c1aa06085b1;
  Plus 0 0x125d669e468a918341f40697d2afb443c24670c357358608410f620357f3c66201f3cb78b2319588dfea6bc08f5;
  Double 0x18b3a5677996983dd3359f318b28671f4f4cb88436bcd95e073d65cbbcda1ca29229c1cee17887c601fe0121747;
  Plus 0 0xb3dea03ac84f574628a39ae1d84e9a9f07dfa96e863e91641511848d4cee7fefcc5c8b33a77033836082d8c267;
  Double 0x10269c2e9d909f2f6a97716da2a3e670974220ba2b12cf4cc76ee200623d751fa92079045c8482085cbc2068c9;
  Plus 0 0x16102d670e27d5fb56c474a1354e8595b036f1225ae9076e4db9187fc3fcbc2b6a68210eac159ae8594d43a1869;
  Double 0x8155de254cd2962b0970ae3b9ebafe9e2dee43557f2af6bfbd99d6470f14364dcae144065a45eeb55f580ce6d0;
  Plus 0 0xc99f8c9a32f7f7aa4e67164844e4cf835e3cc81e760e1ccf039d191c8f902e85756959ffb22dfdd5d9e30cee3c;
  Double 0x4349814a193eb727fb34fe8d7ac224ddd91a11d9f30d5ee6dd86046dca0c76f7b2c946a0649e613c39025ba303;
  Double 0x14a2a5abd533da53db43d624bc4e2d008d8fb7f2a702dbde7b42357db92200e0265fb7176b85950e75bfee7a66c;
  Double 0xb1287ec121e2890be73e7ba0b61b750e60090da89e74fe6be536b15f9eba447123a4cad0e4edd9fe94bdf2e46d;
  Plus 0 0xd072115b5e45c1154f3f1aac991513195bd226f81f8918d98adcc3e9156ea7edf8b616159b97e4e0991cce52c1;
  Double 0xf10a051f7f2b0c89b46b8368ef0fcd403451e6d6a5070e2a1732daf298c022a04ebb27149e44f4b39c22371083;
  Double 0x95f81ead547bef6dbeab2d9463a1f884e312bd31a0df5a727b3d9784d7cea15630dad2077d1edc7a95a3932f49;
  Plus 0 0x133742f6d00d772d976debdebb0d04b933f5154b6c8ea7e02c4a1e6978f16b6bf52c7a17b56f9b893f00dc54013;
  Double 0xa5c8834c796d2b0ca0943a63fe2d21c63ee2c4dd03b66b8639035dad9712c92c1369075ff4781a35fb41a6fd6a;
  Plus 0 0x10c7486f90d140849c11302d72d20b3f97e59c76e3df6b1514405369e73ce9832e438eda59a242852df3efa03bd;
  Double 0x774e7c0918231bed68f0d6a23d8a6edb845fc6df25b74f3bc6457cdc47c51faf96afa787ccad218507c469feaf;
  Plus 0 0x3133cead60537fd3d10879081e2e01fdf16f0f1f547d9bf86be19f5817f29c462b0e3971e2493773f0c10c97a4;
  Double 0x34dcbfbbd3adbfdc8a36573f3861176895d6e9183c494ce51f1d98d0ad2670c74791ede4d6f8b00529ff4765bb;
  Plus 0 0x9c5a1ff3eedc92d0c742df28dccfd736ba26a69317e51f7c9e1b3109153fd44d032be31adff56d657ebfaf822b;
  Double 0xfee44405b0b367388804b12dbbfc8e8b8c1167752feb70ea45ef5c4e29208caf467623d3e57450c9f3ad7ef42c;
  Double 0x56158a5c85343ce85a40cda1883661175f259d3d013966b805bcaf86a637cdeb9cfea609b441d2db8450714a62;
  Plus 0 0x168643c58b16e2cc499c2a28542815d8907c3496cb1925a56d1c34cbf01de95c24a45ca3425f9aa6a456b5624ab;
  Double 0x1700dbd14d36a073aba7dc69f38c51563b1e14872eb9dc5085bca2c33ed774a1f5641049f380133e8f26427e8f1;
  Double 0x7f4cbdd3c8674b12e59b038e918913cb89ff79c2995be28b378df6aa756a0c12cafc95e428474ce60bcfe5741f;
  Double 0x11666e92739a592d638230d41cae353e51234503747d76efcc8004077b512840e2943ff7667ceb9e40c71082c2a;
  Double 0x16a4f3ce39662b665e0edbbf80fab79ed70bae8fc33c4497495c989b2b13d90aaa7770f25f0ddf2d5fc6bc0dc30;
  Double 0x8b1412cac380953586dbc5058cd03392def9e43ef4d301f676394d812af4977e24ead2bb9694934247d3ca9e1a;
  Double 0xee6f5f939decdf38a2fb6ccb7cf9a2d8881ecaeae54ebec219ee4119bd40c115c94f4a7f8faedac65f15d6e64f;
  Plus 0 0x166dfef13d02deab1722f9c4d291e297ba537e96e27d524f0db553546e83af3ce1a150368c661e1db8e0369e02a;
  Double 0x329a5c53aeb4be8edbb1ff42c7a84fd5d2738432e4bc7078e9f55c2aa0bc45d02912a86d495b24c9cf1a1e933a;
  Double 0xecde4c1e26a7aecafccfd1fbbee1cac44303c5e8c5c5ad11e64080789aafef1bc323623fa91946c47012ad0950;
  Double 0xff3071676e250a02f29488542addef75698939d6b49f8ddd8b7e97aa058091daaff1bbdde46025eb9812d8034f;
  Plus 0 0x1c6e2c0bf57ee44f44627d2d5a7435221020eede332fcc02c522a782905c8670e3e0ae4fb01755fac722d9dbc4;
  Double 0x2f1f56bdffe2939d9cb9fb68b6c1fe59f0b34102b00410c2a3bf43c572b6505aacd48995838ee2af64e05ecdd2;
  Plus 0 0x902007e4510fdea9c132e0ce37681c5e4fc7141c99786cfa525e03fdd4d9effb8ca2921a7f53dfe54324efbced;
  Double 0x5b6d4630c39913eab6f1cb5d5ebb58ce21f1d60cb1e257ac2c29b281dacce98c786a10b85496516403f183f8ed;
  Double 0x7ade00659d3dbc5ed4cb55d029e623f1dd25d3d74f476ab32d2b31b0d6de6073483404c4fb473e52fa866ee68c;
  Plus 0 0x2a59f146a7be22717abe0fcbdf9b800e901658fbb87be5f54f21b729d40c8d80ccbc2075b681930dc9461bd024;
  Double 0x133984b12e5bf9e8ad719639a7e59995ac81bd9e79d36fbf3d703387c614e1b3480261c7fb066e4ad3fcf888e81;
  Double 0x73780b3890f06140171fa9fb4885638b57743d9beecbfa5c43c8ba21c3771fa18b5b962224bdd70c80ca5f8709;
  Double 0xfaa855e871d14a535fbe03bc9f62f9331aed33a234a61546adbcaf7af52bd20f4e9552bb5d4b0d708d8a80fd36;
  Plus 0 0x49a2399382465d793f27775c9f2a7d6f3daf4de373e487e7104cb8d893691ebee6e73a2990e1d079214dc7e4c0;
  Double 0x149efa003e0a2e024e08a9c43b9297452cc44beed921a7391de26d17efc2b7aaf4af807fa815e879bf96aa8a9fb;
  Double 0x126cbc234cf1e948a2ebbdf254f6ba874409a3c1732f58ed01741c54f63f572e7ebbe811c22dd07b4894fa97e0d;
  Plus 0 0xc2456a5ca4ba259dc1fe46bcd9a691f8310fb3990b52797eb194efdf143d420548fa93caf2afbba8d255db5032;
  Double 0xaed92112bdcd66420d31eecbeacf03bea920ece3a37d8b02c9181d7a2492abf9fd0e634a52312fd396f1daff76;
  Plus 0 0x113770a31a21d248acc80034947393fd59d950190398975d518ed35d567aa053b01427904b1ac37a51c0b91b337;
  Double 0x93b1f89be6a19e1987fedaeb9db444fc002d04858269b3c360d80b50c7d6fc2a3980f170fc95bd4a39020ff066;
  Plus 0 0x1d820884e24f04658defe534105f9dce8db5b7461b27ea7a3f54b2052bb794f8bf7f4f09723c5bfaa089181bdc;
  Double 0x40adb33193174301eb2d5ce77d301d48b38d92b122b847bed20f66be8478be4843012b94b6e63713ff8eb37553;
  Double 0x50b78d61a63703e69d3a44df05e631c39bd7745a8425e9d6262bd6cf0d7b02ce16a6a633afcf548900d42e181d;
  Double 0x1326dce73c7442645cddb1fb23fc4e27608c04d0a9388fbea409af9d44fd6f15ca934c38b7f005006cd6ad77bc;
  Double 0x116c8ea5b9980f276ac346c311700defba8a5ddb671af6ae65a41cf9d99a43c3464c5947cd7121015bb934f5954;
  Plus 0 0xcfa4e8d73eeef150fa4627437b959ec4d8754affcfd9a1317e7d9c88f2500c2454a40dd95b4523228239462df8;
  Double 0x1566e9ef3ba1f5bf7e8b9f4bb49e3d306c7e8de3e9b692b8079ba5ed4952f268c37548585006b937085a02f343f;
  Double 0x9fc56c61e9bf5ea05875561277c520a5ad568d2017cfbfd558c3a4389453a112249e92566cea183a8bf1b38ab8;
  Double 0x17ccf0f783a473914054b8fe9193dff413c29811e2f8d65c65246c8138dec34ca252b3f8833ff243e14ce22fccb;
  Plus 0 0x5681049e5d2f16d5afe1826657343802980ac9a11af8c26701b93890dcb4bf3d004fe761b2ae7ee90cf12b7192;
  Double 0xa710ef7b87dd837ef4d3c8b04aa1f6a5e81e58f7b93f291760d8be62f235e8a3c9c42c6cbb59b801f060b6ca5b;
  Double 0x11010cf6c514c59b601f56e9b8d773dfa5037697b9193285fb6b12fc6c2103bedc5ce2a4a2f214bda6ae21fbeeb;
  Plus 0 0x49e017fd8e8b82d21821535e920c594ccfc87f020026185d25f9132706b901911c4d47a3ca6f575dd21c02f7f1;
  Double 0x13117d67d2e0faad890e18f6fba21f65b012fcb4b70f874a0d36583f0f53ad524668869b27849bb5f2a8e59a8bc;
  Double 0x1459bfef546800d0b6871bac62d0c1cfd47fc33ef810a5a6a795e7cbd89ffeafea5e2de9f6a9fca06b09e8cdb52;
  Double 0x452bc5ce04eaa5f14107ea093047ec0a695fedd1a7bc5b2d75148a3858569169c04b680d34cb5855da9d4f4510;
  Plus 0 0xa9f44b06193d9279b8d2941d3a8021c5b258e688f4506b686b96612c69b5e14b4b0bb92807c356f55b24aa1fe4;
  Double 0x127a2aa041c91a8344ab03ba5441630cafcfad66494ba1f3605f0e6018c2809596bcf02492aee2e7e72c6fdeaa2;
  Plus 0 0xa8e674e3db182bf97156ef3985b715997274ed9092d721c780e2ff561e3e37f0b601d17de29198a9b3d27f1434;
  Double 0x4e307aa32de177b70a553e291173b8129d83112ddc2f565c135914b9ebd4a822ac856e4d4362f331b752053415;
  Plus 0 0x15007474a42f9cd9d6df21e16e8bb7600b4924a14b4ca57c0778d3f8080a2c8a38111e858cef6e9d3ef87ca61fd;
  Double 0x16d79709476e2d6d2ff8bdf43e71e3bb5c1dc11a7999201f765de2f89e6593d90aa2a4cfb3b6d13a095dd8ddd7;
  Double 0x13ef85279815e986c1cf8f2360e63cda402e3b28bbd61bf4a237bb7ba82d7a9d8c45412803c61d8f6e04db1aead;
  Plus 0 0x1847e1d2831fe663eab388aabc56285fa8e3623263e84895edcb4569ed2861edaea727ecf7c2390282bbb89957d;
  Double 0x100a0e4df7ce42cfe286dc9a4d52f324aa690762f5ef3f73fb9565aea3fa5847bebf810f61208e2b7a5ef5b604e;
  Plus 0 0x8985fc42e8f313cb06629f4af5fab9934f6faea5559272765e1f00fc1555b5dd582f86ca0712e4fe4d0bf9ebf7;
  Double 0x124b18157a44be2acdc0847b08b47f10cded466ed97b9795890b9bed82cc082d45e81e12960d10e5f5d030c505c;
  Plus 0 0x7540bc777fee9a53584ed269c283dbb310d622d2dd94aa90e4f4cce7c79a2e76d424ac734d3daa98779e9118b5;
  Double 0x9ca7283c7dc45309f1b060b936dd8407133fcc4cb9348c505be0f6f38c3ec5d72423e737dd8552961876b3251a;
  Plus 0 0xe97bd1ea0085482fade49ad11f8c2ca1bc7b7ea7080bbc38f18fffeb68f8ca8a639c7a6373bb07c38d228deec8;
  Double 0x5c1391a839c679e9a13fc9395164e06f0200e9c0c89fa7a4cb5d3cff56127084b81d492d3ad14093e25dc6a37f;
  Double 0xaf6e59fbebaaccbc7bb124959a4de767093bed7660ccd1d811de92fee283d2e1fc6424100dad918a9f4437a067;
  Plus 0 0xc442677c6c02d994044a6156f1342b33205a1c02d6b9aafc9f17ec1ae8d497e766f9571d58e0d933748e0dd8a0;
  Double 0x7901f0820663642a6767fb9601df5e10457fb55e953c642f2d3e1ffe12c8a92a99c79c532dc9d4124b13673d38;
  Double 0x10d2d241c2a4bb422a19fc76e59856ea16c440ee3fd157c7524d97cdc1eedf15205a48e56189db8b3e37b511790;
  Double 0xfbab4545cdef62d0c20cee56ec431f5bbf293166d59af52d57562b2a429befc8516ab4d3040a02b5b3983537a8;
  Plus 0 0x17e01317728b2f47122144cef398fd216fd3518d1e692198f3b1ee5f90fe4651ae4e38dd6063d26168a214a6e51;
  Double 0xfdbf4fa8f201f55c94e120bc6e6e9c45726698124550eca08da06c09fb6a8ee9766b98e53e0b529aa7e67c65b2].
Lemma arrives_361 : arrives 3636410625392624440351547907325502812950802686368714273274221490761556277859337865760708490235892541081304511 1823206150609137680397832708734261117529312081574799700856789408156096785659471017057112059984240113469396216 576859479586445582969491899396381210115522646112465688049612344788021506515230780969422304195191641602265641 2411081622498784135833169198807502998548994722689881399520928330786979368911833955634013195140212345720422595
  (barrett 3636410625392624440351547907325502812950802686368714273274221490761556277859337865760708490235892541081304511 6361856438377307131339799557585221069736995681200832842030262680312698639030277788189340439064424306655672368268052 345 397) 522996831121946918645574135122861461946031791899402247158739 moves_361 = true.
Proof. vm_compute. reflexivity. Qed.
Lemma prime_361_7336 : prime 3636410625392624440351547907325502812950802686368714273274221490761556277859337865760708490235892541081304511.
Proof.
  apply (ecpp 3636410625392624440351547907325502812950802686368714273274221490761556277859337865760708490235892541081304511
    1823206150609137680397832708734261117529312081574799700856789408156096785659471017057112059984240113469396216
    2564404016556388127217017520407585626017171646123595848838323624065655114963054950882218999451922405060493271
    576859479586445582969491899396381210115522646112465688049612344788021506515230780969422304195191641602265641
    2411081622498784135833169198807502998548994722689881399520928330786979368911833955634013195140212345720422595
    (barrett 3636410625392624440351547907325502812950802686368714273274221490761556277859337865760708490235892541081304511 6361856438377307131339799557585221069736995681200832842030262680312698639030277788189340439064424306655672368268052 345 397) 522996831121946918645574135122861461946031791899402247158739 moves_361
    (1030392426521001429289199015788988963313694558060403145954187834227989803456513921994043626942364060473428866)
    (-6869056095089338689526001693938570741477249265198292034013140994180131033937663654259046469843677766849982896757948168287155035849030634267925460833672922552777510538591208154388955373498378761206340501591588867778626449252091411834611773808865759546007907549109037928862803291969828619551289209554927360112840897931960397355)).
  - exact (barrett_ok 3636410625392624440351547907325502812950802686368714273274221490761556277859337865760708490235892541081304511 _ _ _ ltac:(discriminate)).
  - reflexivity.
  - reflexivity.
  - vm_compute. reflexivity.
  - vm_compute. reflexivity.
  - exact prime_199_4471.
  - reflexivity.
  - exact arrives_361.
Qed.

Lemma prime_391_7951 : prime 3615194794881930010216942559103847593050265703173292383701371712350878926821661243755933835426896058418509759880171943.
Proof.
  apply (pocklington 3615194794881930010216942559103847593050265703173292383701371712350878926821661243755933835426896058418509759880171943 (barrett 3615194794881930010216942559103847593050265703173292383701371712350878926821661243755933835426896058418509759880171943 7377765029225903645377954824182199951026268851455079307942494442358915200299932361369312493734164559542491605468707347287504 375 427) ((3636410625392624440351547907325502812950802686368714273274221490761556277859337865760708490235892541081304511, 2570363173372444901893421849988648877724220705133075384197668265746368111143681284460535923304905052064115102657269426, 777116059834092257115197520764330598269969748435571170697052149822819268426272708945054751846480798207396843733790641, -552520850179826692678594739336193447582014935606650824578946252039096879404975055529284910925822689131646748042955168) :: nil)).
  - reflexivity.
  - exact (barrett_ok 3615194794881930010216942559103847593050265703173292383701371712350878926821661243755933835426896058418509759880171943 _ _ _ ltac:(discriminate)).
  - cbn [map factor fst]. repeat (apply Forall_cons; [first [exact prime_361_7336]|]). apply Forall_nil.
  - vm_compute. reflexivity.
  - vm_compute. reflexivity.
Qed.

Lemma prime_order_p521 : prime 6864797660130609714981900799081393217269435300143305409394463459185543183397655394245057746333217197532963996371363321113864768612440380340372808892707005449.
Proof.
  apply (pocklington 6864797660130609714981900799081393217269435300143305409394463459185543183397655394245057746333217197532963996371363321113864768612440380340372808892707005449 (fun x => fold_red 521 (657877501894328237357444332315020117536923257219387276263472201219398408051703) 6864797660130609714981900799081393217269435300143305409394463459185543183397656052122559640661454554977296311391480858037121987999716643812574028291115057151 (fold_red 521 (657877501894328237357444332315020117536923257219387276263472201219398408051703) 6864797660130609714981900799081393217269435300143305409394463459185543183397656052122559640661454554977296311391480858037121987999716643812574028291115057151 (fold_red 521 (657877501894328237357444332315020117536923257219387276263472201219398408051703) 6864797660130609714981900799081393217269435300143305409394463459185543183397656052122559640661454554977296311391480858037121987999716643812574028291115057151 (x)))) ((3615194794881930010216942559103847593050265703173292383701371712350878926821661243755933835426896058418509759880171943, 863672669430034820439072098528449958823184325049936034739956183007672815659280399172219160446294825331492511315922958205893107106089621063509063550719363669, -555549800267760874537810822134547698223547574003085525000781756706826154896174001309435864271988675361290763660854682924484788813667616761530552830781727803, 69894730005698489444505046194590059411241395915319153347194757446486638860643585291156870649778667158908162008243878716429797044251596336403188924147793845) :: nil)).
  - reflexivity.
  - intros x. rewrite !(fold_red_ok 6864797660130609714981900799081393217269435300143305409394463459185543183397655394245057746333217197532963996371363321113864768612440380340372808892707005449 521 (657877501894328237357444332315020117536923257219387276263472201219398408051703) 6864797660130609714981900799081393217269435300143305409394463459185543183397656052122559640661454554977296311391480858037121987999716643812574028291115057151) by first [discriminate|reflexivity]. reflexivity.
  - cbn [map factor fst]. repeat (apply Forall_cons; [first [exact prime_391_7951]|]). apply Forall_nil.
  - vm_compute. reflexivity.
  - vm_compute. reflexivity.
Qed.
