(** The order of the base point of P256: a chain of additions that ends at its opposite. *)
From Coq Require Import List ZArith Lia.
From Verif.Proofs Require Import FastMul Sec1Chain Sec1Reductions SEC1Proofs.
From Verif.Spec Require Import SEC1.
Import ListNotations.
Open Scope Z_scope.

Definition two_p256 : Z := 0xa249bcb3191802d3cb56fc75a8731f848e7b2caf080f3477a4e4d904a671af9d.
Definition odd_p256 : list Z := [
  0x28cdb0fe6681d140c59fb73f85f16459ca4cee083742bada762de4ca226a8086;
  0x63fed8962c05ae08af71e0370a29504a31d75d0224fb0135dedbf2b49db4ec5a;
  0x18c1a34f6673f28e46938ebf9b6006dfa555d9d25d6b2f629017ff18d0bdd6d4;
  0xf99e2b967d8e0afc87caadb0694609415bcaba785f9c110a24a12fadca6231b6;
  0x16dd88585b31ab7ff112ecd9f4f7021e8f490327404d0833e208ccc3b94e18ef;
  0xf26e7352f2ca442ca443dc72bb30806740769a5076e020a6932f7e4ecf8e5cf1;
  0x5d8068eeb9acd3d7640cc5e58c57a5869561fafb50e6d2a788471eb709ee40cd;
  0x94b42c725619edcc2567830734ab89f75527be3cbfa32172a7cd1666e6d8b0c0;
  0x7f544ca683248508d902654173b820bd07bf50e35e38368d1787f3cc381a8aca;
  0x9963e06db1262bc2da74c1f1212160400a09ba886c4cdd460b7515583b19cb01;
  0x38eb2669f352b6467818b12dd7ffac96f141f624eb9e71b16bcaa1fe11dc1889;
  0x503b8ee6fb4ec9db19334b46079eb487740d7ab263ed23b87bb6832913f8fb68;
  0x9dc9876d60d2b940459648fc2febacac7defd8bc65de1100f5f440c10e0be1a0;
  0x572dbd3b9db75523665424d3be660cf644ceec62c58637dd7af9ae82e1708de5;
  0x60768624a1ae789cd1654e52cc26579e5c75bd5bcc7e299a18a11ee6bd5c40d].
Definition moves_p256 : list move := [
  Double 0xa2fcc0c49c6bd1f85e9581ce9fe2cd015b8872623d1fff57033c640251a7cbbe;
  Double 0x5669b961424c4285d40803519e82698022bf579b86831dbddf4023088d2afa36;
  Double 0x1220293116f175e3e8694033e6e5211cb4f83ac4a577ca403a2e42efa7203bb2;
  Double 0xc963dce284bb438cb8da2b669885c386fc41023c00a53900a01c03d321c9c447;
  Double 0x6aaad8c297099ee69b89c312ec8d6dd7b59f625d842e7f507958994adf5e3785;
  Plus 15 0x24bb419e0ca6ef94cfa968159774e6e2801bf5d4fdd16d1e2cf7346ece20e553;
  Double 0x67946c57b86ac9a6e80450f2e3597bccf640f6185ee79940f5a625a8e4c879f2;
  Double 0x71a6e3023f9ae656c361662fdd7fbd8a76314c35dabeda20898aaea8da8a1480;
  Double 0xda57dcf8b2fb31770305e6067a1a5a13d89c52d3b2e817aae5ba40d56cc933e;
  Double 0xaf7ed447900db3f9350f831664d9972ea3387e6223dba77767c5bf0663fa6b01;
  Double 0x971b136b855b07be4ccc818fa3592da3e5a45d49d027e91b1a8d8969dd182732;
  Plus 15 0xa14c69f85962517531c7821c2b99bb3d29b1d8e2122a7f6d105a1169f2b0df4e;
  Double 0x4cc05eb2acc0aad34fb161616e8bfd366bc3d41c23cc8ae1096e30b81801f330;
  Double 0x1748e7dafd1e6a7690d8ef68d61e47664d91c7d42b446c852ac815988c5c5d79;
  Double 0x12e095c8df55cff2a9921457b7a299daf6db371aed86c446afc36dee69863a31;
  Double 0x54c2a4c8d89e44700cf6351ea74259db1d376e5130a6f0c8eae762173d65c82c;
  Double 0xaf38194764dd755fe812d37cd29ddbc352ddd7a59dfe9005e9555debf13bc371;
  Plus 15 0x66d91ec3dbf97d64c3a79fca661e07059c37bb35a47e55c3d106c9efa57e296f;
  Double 0xefb7da29c3bd82b499aadd4cdc78a1214f6edd630fd9718315e31bc74bbc9056;
  Double 0xa633ccf4ccc19b162bfe3132301fb06d50e4afd6fdffa4262f19d205cc4ec720;
  Double 0x14590dac23ab8db1aff94c00d7ed0eea5f9b6df39710ee3421a67e3ab6692fc5;
  Double 0xdf8239e1eec457ba8cf9f52cb8c97910d3aede6386cf36a478b7f9ce23fa9fb9;
  Double 0xc231f51fd673a4daa4ba80465bea20d487e9a6d2fb042a3172079034a4f6719d;
  Plus 15 0xd28760cda47b673d054ee634bd33355765d4accdf2fb835c440d509d170354b4;
  Double 0xd8a0ed8b212dab2ebda53bcdef61b3168fff5e154f8c7ab117c8742ce4c2e5c3;
  Double 0xce97f21e23feac39dedf736b426c4f8de0b7a26800c852942b0770ca54833967;
  Double 0x2d978f40616896668769fd316cb4d05e69a539aef98123ace3026cccf54e5cdc;
  Double 0x20b35aa40d19484c54f0a9c406b5f1e618518baa08ea1ebfc5bf6436e9c511ae;
  Double 0x31296cd92041df096d24cf02c8a9b738d756f3cc07a3a838e4a4735202708465;
  Plus 15 0x8dcd3a848f2b810dfa64083e26f9ad13d98d8e5556a06565d3b8de30b40b9496;
  Double 0xd8f4d1b39cf8c94525b7676963406dca4f7e27f76ce5cb840512fe2b0c79d8c6;
  Double 0x9d6cfa4a5af4fcb466c6049c5216e4beff9a221aaf6400e93eca0b06e206c3a7;
  Plus 1 0x65d8529c7eb6d638c723f7af5de2160529e2bde71b30ca80f59a4baab77d424a;
  Double 0xe7289190fbb5a7d7d62b51d40f3571670d41439c83a980a6ebf0c77129c5ea30;
  Double 0xc0c0f69007425dc498074987e7b1b2cc32e5edf753f84c8d1e31e83a7f4c1fef;
  Double 0xe2266a64fc9e96910bfcc391499f69e6e3862cdee724bf5f53e52619a78d636b;
  Double 0xf7be988964ec4116f418581f98955a9ca415e34883c7a464aefb4b965b9e49f7;
  Double 0x4eb34c79827117c2632524e9f4d02fecf1eede4cdbedd17bc9b364e5ee04dd99;
  Double 0x53b963e0e2a551f86b7527b4da6ce25b70cc5b23592b9b7b4a6768e1eb9eab20;
  Double 0xb8f8d77f98b07b91a739fe888ef94517d1e11ec5ae46114d5d9fcc91b1494e2f;
  Double 0x856480bf6645295b7cc166fcbf9ccb4213ca02b689e6a51515b002a54653b436;
  Double 0xe5bd602b7c75efe5dd4bfee34f6d5f15c12502dc3d6a454e8416bf7262efd14d;
  Double 0x901938d044075d035fec1e3dcc28585a76a2c4f101473d40d33faf2d07a666ef;
  Double 0x225568746c8026c61a929d9ee21cc8b663b8b70852d3eab403172b36db27773a;
  Double 0x730e7f0e730508b34af19c004afc304711f461a3ad85aa214506bbb2d38216bc;
  Double 0x61bcdb4b66643b59a748a3260de0d150ba66d53835998a7618465429d353b8bc;
  Double 0xc9651e62d6774d6d434978a729e20c44dbdf244c051785d459e9d397faf72d77;
  Double 0xd5c0e76343a81b2fccebfe410ee5f059d6813035f76b381d8a4c32004e356535;
  Double 0x33ca08f7f6caf3b2bc2dd0597e53765ce9a3a459a2d6ec8c14fd62b9829c8036;
  Double 0xe3d88474bf049aa8c92e117118d8ae2192be22c3afc88bbb6d45984b246b29a7;
  Double 0x48e767de0f22738d95a0cde900e2811f059cc9b0b4d8f7c6662c971f6dd8540e;
  Double 0x40ce2d624ccbdda2181d7203eceba6f86c74ffecf1099f60709afd4e366ad7fc;
  Double 0x7ca5a95dbd0f238188c92bc10fe3120ca5cdc8c94f5543f619e7b4a285fac63;
  Double 0x1695cb9add979f9b44bba53cddc3af6ec9a9ada1fcecce7cc21c53ebfe9bf13f;
  Double 0xb52ef301be713cd3721fb2eb26e9651c62dbd5611dbf05a2a082290ba0205c5b;
  Double 0x477a8d7b28feffaee439432c1cb34e620d2b28f77d7a02dd8f8b7b25da055f0a;
  Double 0x3df23d02be64203da86b3586f55929b44d3b721a7d42d1f74c2790f568dedb19;
  Double 0xc4edab784cc66e9dc3ddc0a1bb35098abbebb6da1bd0379f4f35495b1810da1b;
  Double 0x88fd5e6ed410c082c3ce11a91fb70b3f67e4a7765d05e18d7f947b38ca97f419;
  Double 0xf20a57ee70df07d6ce91f0bd0a46160e3a6c07e71c958c66141e21069158d350;
  Double 0xf1fbc80729ab01a5ccb119d4f3c345cb8f969116d59a28f5bc535098ecc8e08c;
  Double 0xb6f56f88616f73e59cd055fedf26a4e7e9b7d3805a7210f8280ce5f968813bdb;
  Double 0x95293b8c9d1b7cbee1c6a40dddbfa08124cd4c445226188841a5ce723091ed70;
  Double 0x5fc30199770d63f9306b8eb5b70c590e7a78844d7f32b7599bffe25242913afc;
  Double 0xe6f5915845524817c9b060c18d8b717cac8fca080e26cbcd288bf75a7faab605;
  Double 0x5964c5233f7fd444ac5e95e0039f0cab6fa80871add7e1b32f0a722a6608889c;
  Double 0x748605f98a44ffdb3930cea42bf820c24251d42f4514668204d50214f20ec435;
  Double 0xbfa7581ba17e7011a35037f5554ec574466581d61ebf651be54010d1b3462128;
  Double 0x15ccf0c1cbb1265789c91d1e08af146542fc69685d2f29bbf2b57c8be05b29dc;
  Double 0x132e377c356dc604ce9009f2fe476dc8bce83718d159bb94bb3881b71a9cd6c;
  Plus 15 0xc72870a1c65b465f6ac39fa12df80cb1be9cd897a260268092e2dcc7704580aa;
  Double 0x37eb0347dbf7edb778e2a3b5a46ddd1c91217ddfefbed72597fd6bfc3ca1869;
  Double 0x73d2957fbe15c27f390b3b30f8e1b43ee48300ecdb3f1c908dce6b04a607e584;
  Double 0xcc69b2cdc5196c7187d587be6f72c8462d583d772a647d4abee7b11a9b71edb1;
  Double 0xeb1d258b5930d1ed50dea54ad2397f99d82815d5e8e97ab0939ae0fd60a97d18;
  Double 0xe60e227029ca53838270a90d3ec972134db375573b90007890d882384a9f89d1;
  Plus 15 0x3c7d5f50ebe591a3008a7a643ead1654d987786e5d657d0703f80646bcdd3d05;
  Double 0x4ec5bc0c0e0f3139f8c8f3d6583bd0764824d993206fc155b8e5ebe00b29fe4;
  Double 0x70fad37d60dc7e204a24c22eab8f121178441aa6c8ed9815ab4b6248a2703b65;
  Double 0x6db3c60653efce580e8feaae1f2593b1901f44a5085be1f891e54693320d46ff;
  Double 0xc7c9054bc4bf6b7770521694b92448d83b718b8d27b721623257271f0a79f8bd;
  Double 0x2d49ed27d7319373a6e5a23f7be18a9feed2239162fad4f08158d2b27ce50d31;
  Plus 15 0x5a8b4e7b6061909e0241e3feb9f212640d6d36b9076bd98e30c74e6b077cb3bc;
  Double 0xa6a59f0292e60295ee590171982f2037efe67568e5706587dcd8a66584dac1a5;
  Double 0xd51af5ca7d6f55c1735790f10792f3f5fbb9a764182159f433b0d159b915063c;
  Double 0x840da4ad57d877e267c485856088a9b20f88239bff8783c6a7285440ed2b2bcc;
  Double 0x330a49c7efda83af11036f9e7db79075977e539fc3222b3cc44069d031e17a22;
  Double 0x158c4c604584478a5433d4f9a6a61c545b3f59b7ce7e53f50793e8d04c54f037;
  Plus 15 0xd8ab5024443e197a98054b342b35c0343cc4b3ef4499230540a02ad416e92220;
  Double 0x4189983cc2a433e32e4c0ca067d18c8944722d6ff6e38f3c56c4aa36b977294d;
  Double 0xe3ae71ae6334d2f4e70fd67aad0c9cbd5f2c37967c220bcd58c12e23d547a83c;
  Double 0x40e350432d3c17a300c34f502ad1f5a319d15305bda6afcba6f776e0207b0f6d;
  Double 0x741b3bf9591fbd5e9daa492c805514765f3069621b7809273832d3e215165ef8;
  Double 0x99fdc0d775c6b49921fdbe9e39760256be2b6cd559d844bafba7aaa8d745754f;
  Plus 15 0xe0e0d56b75b37786d0c59cda4b0cf93a73e66248653242056f213476a8cbddfb;
  Double 0x50889070d4b8be7ead191bd948652723472319dd8fcc42db026e2b2985eb79df;
  Double 0x3ba240d538f6ffdf70d7eea75aca4570d4ffadba2bcc91de43b36e01dbd96f29;
  Double 0xa03d5d701ce747535ba563356ef3dc00bda319175f352e78fb705959312c2059;
  Double 0x326ddb2092840ce57064339cd0f134cff12a767ae5aa7ab45720edb3b2af4b05;
  Double 0xefd82c3b6bf2916c54fd3ececf73edbbf439c86c085c3bbacbe708f444c75975;
  Plus 15 0xb23cc58d38c32191d796a838312dfbaf529f684d1d7c34d53d299ad19be72249;
  Double 0x1d84b9edb57b729ab2472b66c23924430e9d65d34a3c606aa4ad37eed84bf2b9;
  Double 0x105d016826172f9fad8459271cdd04e2dbe4075631b45794a05446bc5126c471;
  Double 0x6981720e9bb54646150f3fde714076a80334805e64065c1235eb087946887582;
  Double 0xb1befda3a406ae846585762f9b6361844276bdd28e2d299a50c5b7a5db63e78e;
  Double 0x684bfe2607feb02c9b7cd893158a127a7187280c8ad6497c5256a6da128e70ff;
  Plus 15 0xc29def96abff3209417fdacaba2df3d25c7ee458d50b6cbd1c622c570e693140;
  Double 0x713b180aac5482ab29c14d427cb4dde223507b83d32d837f7c193abb1d723e00;
  Double 0xd16ffcc0086b747f69aa7290fc5fa51f00bfb19f12f4ab86dc1d9c49f63f7f9;
  Double 0x4bb832a00903477dc250ea3334c02f590f20ce019ffa41470c13531cd706fb61;
  Double 0x625dd5b055deacaff52acc2cacb6f2b0f2b0d32c950f9221fcb1ae667268ec06;
  Double 0xecb65d04a4d88a3d30001ee1649c99dcfc0b53f05b29711971abfa3e4fcbe5f3;
  Plus 15 0x18009f5301459d4a07bc454a156662ef6e27f177239ccec2f265207624787d65;
  Double 0xa6c85074d081ebd26cad9a9be42b93b4873a2f39c80159778e7e7a509f501584;
  Double 0x38368a24698414ee3180111cf09bdac9d8a6647440d37bd6d43970c881a46d5c;
  Double 0xa69480debb57aa943c9095ae940ba79c5f2211ce766164d69da152f9b6b8262d;
  Double 0x5a849c0a23e20e6f57582457e5f27c73a6414495fdb4177b47d3b4b83cbd102a;
  Double 0xa5ede1fed0398755a8f104a570f2f562507c8fcb8b140968d0d6f974884e169;
  Plus 15 0xaf88f42f5bf38fb728383519ff267dc6f258a40eb0eacd34cd49fff7a238692c;
  Double 0xc5f4f06025a5a1a928e3b5fe2b3299987396b2e47823534fca1880f7f49a2eb4;
  Double 0x10e3c6329ac05acd996eebaef3812b0ec8d22ef57d14ad194b0b5e8eb00af95f;
  Double 0x82abfd9a1715d01c9465a7fb60a76a7620cfb98a50ad67c6ca2d4bfc05595cca;
  Double 0xd19a81603dcec295ec3295c8e1fee7b9ac5a836264455c820f9f917a058bb93c;
  Double 0x4b26212cec991995eb9fc3864a73e252993eac04b00488e6490436b900e07059;
  Plus 15 0xd488315c51a3b9235a8b3c21dbe661ef012d0fdfcb055cff20c34486d1df4529;
  Double 0x9a50d4adec52fe7a80a0e78a3a0c66ada45c26178a6f0f31718a179db67663cc;
  Double 0xa2d9446db4786055f3732c4c2a4ec9f82138137a4f1d8824c4f4d3bbd24a8e3f;
  Double 0x578c1a062438227f57bab29d2c4e5e393c31fc248b92fedd261489f9e18f33f5;
  Double 0x1f2f394875118b8a00e5f0345b8935a17e7a1a1837f54853b18b13780badfc46;
  Double 0xd22559923103a2051bd6f9ba129b4038bf1ac4da68baf4d17b501369d6f69748;
  Plus 15 0x672a7710680d13ab99d2653fb359ee9ca34a8e5a8d2b9ed7b6159cf57b6e03b5;
  Double 0x8422412a60d5268f30e0c119e1b3d9551abd8b36fc943bf320de5a178ecb34f5;
  Double 0x9b0c59a468a13f382a0968ea74599e599b60b143a644725dda53b04493241b24;
  Double 0x31be640266827cbfa9d6e1b8cf66838834c94439b78c28841845a5516bf3c873;
  Double 0xb315c4f936f35317764563f4518d746e9b4f28c48218bd2aea3229c31379416e;
  Double 0x3676f7857a79c26f2a426aa34934ba3bd31d01042c19f362dd4ab8acd7e41e7c;
  Plus 15 0x8bb59ef71d63002ce7af67fe52a3d317ae0f65447e3a94c695ad3da2c6d2a26c;
  Double 0xcd5722b4f57a0a76a3e480571340c8491342f649808af45fe6fc79de2c63f3a2;
  Double 0x8378a742019cd2d464edd0378e910a239c14093c916f8420845333c55fbb9235;
  Double 0xb1cae005538a672aa63da204a1fb321b0bc8555ade0f7f7590a4d57b8a070a6f;
  Double 0x995221e9443839e11145a6471397cb9ec16cb3b6b3fbcd946fcfcfccdb6856bd;
  Double 0xbceb6502b026dda49088783a46ab699f09896d066fe37cf229777d961d65984f;
  Plus 15 0x965390cb21c337cb232ca1ebe576505725b99a23a7d5bef87cb439db38330151;
  Double 0xf20d44963937da1dfdf6dbf36a5adcfb3b8fab44d9efd9b04e8afa0421a9649;
  Double 0xc544b2a309280f5ae580d5d923981c523b647cf5dd806567d431ad7de0125b0b;
  Double 0x228209504f3b6769a488aaa50b5bb1682fae77f1ce229a6cbc998fa5a1476dc8;
  Double 0xcb4a24378a6f6912ed148512f564df69c09c428fc1e0d7e5ec4de0defe8886e3;
  Double 0x67988cd0872c84771f781f97ca5abc15c5c24434842be9debc22021e6b9eb201;
  Plus 7 0x2d05bab233f789a18b84d5225eb7f5f04d74ba524d08e243893768756825a33b;
  Double 0x674be996a79b1ffa91230f8457289247595753941f964900da839dfeaa64d097;
  Double 0xee5e7e6600de627f082365e48c6f6688ca2c9ead6d077753c293089bd937b41e;
  Double 0xcd91cc334db87c39c7ce70cfb2f30b7c6860531fb6369667b92df117f1189eff;
  Double 0x6a87849d55621a0d54421c8bc664857f96ad67b0e6dda85183cdc7fa9657308d;
  Double 0x23dd65f27fb8322ef0afe44464cf5745f641339de1ab69269d1bb29305dc990b;
  Plus 3 0x93e27c95e470adc6b307f50ff2df73d45fe5d3422493aed9b1a59a50ff3ffb3c;
  Double 0xaf4aebf985cfa16ba0a6d619d9a6e023514f5bb08c62d76b0420577c88407f52;
  Double 0xad5555a05bce9b2281eabcab4e0aaaf83beca658b0c6b730bf3e204f948e8da0;
  Double 0x483de7956274d82c64f1a4dc18fccd7e45b35343f872e56a8a8bee2d07c8d126;
  Double 0xae3e2903620c37d55d0ea6b3e1fc67d79e179eaa446f69c274092307b5504d8a;
  Double 0x57f70416236071624d21878e8af0182cd0d4c71067dd9430dcdacf3a52c7f258;
  Double 0xdfe0b4214974e9710e5d25ca2ad23f73b45b5e6c55154dc395f6352cb7110447;
  Double 0xb5cd5cd9483b602205c1e5c6348ddc3799c87f889018bd9297d277c8fd5e02c;
  Plus 13 0xab63220d87f863d5b796cbb479eaa1a79644cda0d226978db873c7682549647f;
  Double 0xae8c00106c46b6185f2774b74448888bdd241ff44e897e6d216cab541aa90ddd;
  Double 0xd9a2ea434e27f7fbb5c2627e46a1572c58ea3b1f2804080cb2d47eb17a9bdbe0;
  Double 0x9319c409217a03f91fa9d5c1c8d0180b4ae44132def0c6f35c24c6c5cbabaa01;
  Double 0x971b05190fbb3129b4977af1a2b68585875c6008ef556f18e11fe2c6e9f35e19;
  Double 0x2c79ff510d019f37b139f3f68b505775d1a1071060255beef526c1aaa8fb4011;
  Plus 14 0xcdb661c3f8049aa16d8ce008b856460bc0421d11e50fe0aec04c859b179f8579;
  Double 0x7c8c145d701e464083f094c760cb94ce22e5c4c127ef0034d1950df32fb79c33;
  Double 0x35c60f1a836092c74a628eccca0bd064ab49bf4039b700d3e48b339249b78f83;
  Double 0x3ef66a9a48de377090965afb8837d3c97875a34b9d4a9888fb2654c2a5e541b0;
  Double 0x9ce46557959c8d4692c643414d0dcc989e9d251a3e9b157e71182fb86f4e0717;
  Double 0x77486ebb7d837d382200a7e3896fec312efe99d67d88e605c2839bc565e163d7;
  Double 0xf89bbdfc10f26dda76744e944a950d6e4e9e0d3f54e28620dd4206484632f9d;
  Plus 10 0x7f2c65ce9fef64c18e4b106ce0f10d2d7039b44ce6d01b18f1ee40944b5267f4;
  Double 0xc816e595a34f787c9029049e3fa6f83055c0e2a6ac9a34a0bfd611cf94593802;
  Double 0xafeb590e75dd89a1e58ec6ded5824c56d8ed0f7b005460ce2e3f405c4c6ddd17;
  Double 0xcbdf3d449771ed1e870b2f45c8789d02ba7e68262e19e0d34cc2b820fb64fa34;
  Double 0x7b0cb0cba9b0b07540f05875b9eb9f28d1b7f97895cc35bde9d9ad742e6d1684;
  Plus 5 0x3dcc9ff371b594f3ca23e23ed07d8c88d98539812de85f37ba84ddcde87dfa82;
  Double 0x4a370ec9fecf54b22643110841d65d9b9a30cfe56c3ab2a83ebd00265554fcda;
  Double 0x26021cd70550e8cdba42f3e607e8d47fc17e9f01548cf8991eb7ea0920d2a1e2;
  Double 0x8a817b956953d05df5184a1a379dcc38d48a2562187679d1dd08e9b434f86c0c;
  Double 0x3251f9dd2d2ea0ae8f0bb6cb28ee0c37f7e57b5375a3628c28a2f33447cfda21;
  Double 0xd1f3c394e6a663bec347adabd76711eca79c90bd7a442daa77fce21679ec03d3;
  Double 0x34fd288c677d26ae8d1449fad1502233117e2a04a2008688c29e08cefc40959;
  Plus 9 0xec364b102b859deacaa8f2fc8e1f0b5d5199ca776fb4bbafa6bffa205f44ffcc;
  Double 0x603ce71d2f4875d6123745af68f305da3eac9f117aecb657b2452e1194fd1c8b;
  Double 0x300d69e724450afd9436d82b115851cdb2abcc06b9c1e8b2f8809466215e44b0;
  Double 0x4bbc324a7d99a898c7bbeffd8061fd40af0982574c736e950a6a699ee3dc563;
  Double 0x820913d94fd077a334a2ad6fbb94e43ec616bb236e24b01a59165096aba2dfda;
  Double 0x581653db1138c9c8b72b2c561b32aeea36a14c8922a87148a1d8264bfe80f39a;
  Plus 8 0x288569c965ce831b5a329baa9e5b13e9c6eb27cee0caa194ca0d9a81308824a1;
  Double 0x5acfb45bd60bc0684156370c695bdfa3cab57c65f4c38a6a53081170e235536e;
  Double 0x947b6dd1a288447c982122974b7d9a8332d3e6c66bd628de21b21bf1e207b274;
  Double 0x7be9fcdf551c55446a44dcba52813f3ca976f7ed6061d5fdb48363504ac2c12a;
  Double 0xfa946ba4e4dfc8115d5a57d2a6917fd412799430b8dd27dfbe0d05e983003821;
  Double 0xa1f474a47b74ed09576b608f3625c9c1c23358d5eb838c27091d5f15c8a41d44;
  Plus 7 0xe9653f600e6a14f457a929e3efd936b503a1c8ec599e65b8c8e03a28f80662ad;
  Double 0x3050f99b1337c62004e120e368b9c0f76b837cba50537ff5e210843b7f72c84;
  Double 0x359cb63dd575fe116d4334b14409ac9b98abc4fbae71c5208e980e73c5464763;
  Double 0x741d59dd266cf529f4c4d32cb6c774d98385e15d27764acc6c6e572e4e80178c;
  Double 0x838c798bacfd36910554a1a9028aa094d8bd9b94695d0ee71ae95cdb81e6d87d;
  Double 0xa07bedfc7b9eb7a05dbd8ad413513112744ea93a2df8955faa36e51bedbb579e;
  Double 0x1d467ff2995a6f6e5a2ed712b05270245749299052686a56e16badff8933357;
  Plus 7 0xee8ad5282f286ef901a803e423a9d26f5ab7859bce204f3ffed8bb0348ceb903;
  Double 0xa062b7b604d46e0eec641b05bea0471db15e82688f5826c1c34637bbd3edec1a;
  Double 0x9fabde1ceaeb992e80017b12d617ae37f2035299330091887021ceb827ccbb36;
  Plus 0 0x230d7a4a3dcda864775eb4ffe8f319d14834441848fc304ad231797811c1302b;
  Double 0x5470a5c84b32e321637d2e208201a340a01ffeca339bd0aa80979c4f1170ec87;
  Double 0x7e0a3376d947900a7a41aa6d2f81b1952d4c5c95a3d6fbf1603466442e7f0620;
  Double 0xe05d1f4553924fe6c8c2d7e3065b67bde5d0c944415fef1de4ee9e5bb461835;
  Double 0xd6be9e6daef03da7f6225309237433fd6749d3ba48e55744d1086a32681a48b5;
  Double 0x232359521f0e0a6d5ebdb8edfec99aa6083f85ee92d280a53cf82f10076328a7;
  Double 0x92aa12e4ac71e4699357ef1f0e55c574a6608ced8c4ea4c0682e47cab3e69345;
  Double 0x6f7cfad88c4dc7d942b881e354b9ec0a64eccdc2bac97fcd94dfa9ac38c9a7e8;
  Double 0x81a10f28cfe03783a0dabc05e41e344ebd12670d02fbb9d29cb081631ca537ce;
  Double 0x217ccb60bef9236b9fe32bb884c95ca1652a82e8993f97050cf799df20f5339d;
  Plus 9 0xe773bb3fb9dd7bebf8d8d8bf00b697f417e25d9701401c1bd633d5a1e66a11ae;
  Double 0x1ab42b29bc622068b7cbc863c4ce66b417666ef3b1d9e655c61875341cf429d2;
  Double 0x78ff1f3de32aba901c9218fb4f720da31433bb123da4e474a6c872382fac42db;
  Double 0x9ed3b3d02748e0b901e5ccee6bc094bcdd8bb9e6cc7dfca87d7af8e0ef104708;
  Double 0xadfa970843fe6718e3d6aa6de1462029a812614480e375f97ab5fcf52117507c;
  Double 0x24bcd4163f56b3032bb3e64d26cd395a690a70eb9181952d733a74e8cbe9e823;
  Plus 12 0x21c925f99f287e5cbcdb5263681f3eaba0c053478d4a850fef025a6b15db778a;
  Double 0x47a696954b4e9132c951338cc9a61bd3e9b4bc2e9b3bf2f53bf47df42cbbdef9;
  Double 0x6443e172d3d89dbe9c0c392172930f977d3ad39999edfc17e82e13a99b8d272f;
  Double 0x398fd193cebe7cd3f37ccf2431d6ef791d181989ea9076a1dc7e823bc86b485c;
  Double 0x6fbda97868083aafb3de18e1d272ffbfa1bcb2a576938b75f6a27d5a93c44c13;
  Double 0x2e1a676a920ca60e7e5193a67acc7eecb434d88a1abdcdeb65c1fe68878bfea;
  Plus 13 0xd2458fd7e8b1bed4eea36f013a6f0603186ba91db28670a171a0f779cdf35903;
  Double 0x8fbeff7fe11ee2c66414064d23a0f74544e896ff2b0fbe02682a5b0fc230802b;
  Double 0x396191545eb784959d2388f57a66d68fd1e43818336efcda99f74104de65cecc;
  Double 0xcc5114b095886d642da93655ab050d01466a34659246c8c7e35dc741ab2ff69d;
  Double 0x8e322acd72c329d4ef31b9494328df2c6d89b8bf3adc0bfbea71f2b1e29d6c0e;
  Double 0x92a366bcd7135b536be6c68db3f397098ca76cf5ce8625f04a42ed579531b139;
  Plus 9 0x697fc8f80e474979f6d87642b4efcf79b3d70cab447f3bf51c94ce201f0fb6e7;
  Double 0x57e62cadf09a652b3996d26bf7e6bf4fd20ed169403615faef394d02d32cda5b;
  Double 0xf05321ad563a69feccb25895555a7d9442a1494216db6a590b219c26e2938557;
  Double 0xf51085ae63454eb0267e5a84eadc8504ec823bc1f2f98e95e37ee0a427a1052b;
  Double 0xa8e4ea9400cab52b6e1dfe4c6d3b98beb2f7e8286a78ae522cbe7c8c88114b27;
  Plus 4 0xfb56abd72e5c3110956c09e70b689ef9af7ff76c75d406d32cb48e5bba02a3c1;
  Double 0x1744a80c7c558f443cbaeab6a1598aa5cf536f8e359d8d65e6a33e32950b33f4;
  Double 0xcb26e5491d724794d4428479d1e1ef5b43aac2ee8abf8bba5d91c748141b2caf;
  Double 0x146182b781c8dc66c6a10198aa395566aa2d4bcc2d33fdf95005b4147f36e88a;
  Double 0x23001b147ea0d9a0c4bff4231ecd514e5ac0702ca336a4added8446f77bd110c;
  Double 0xf1202624f9c35e84479f7d15dd4a714ebc248d50d3f3be153c103c0b7a25c6bf;
  Plus 5 0x2ac10dab7be6662dd5452db0542a9bd7f3c116d2cf98764653f08abe8ecf3419;
  Double 0xd179f413ae3bfd5ab16b4fa72c59c7cff3de907e09f0fe2e6784aa84fdd8df5b;
  Double 0xf3651f1948b6da881c2419f75d7cf4b68afc8df485801ac4b19c7755233c6f0c;
  Double 0xbe23251d063af957b0c233d8caaad3245a71d35cee8041a4da77eb003fc49840;
  Double 0xd6773521eb6e218ad74d5d85cc0a9a6f3f123dbe6a34ec9433b8a7639848538d;
  Double 0xc226bfbf1244da56d3dea59525961a1c5d7418bd2bf0657a343a360c1befd5f;
  Double 0xea30a681eb3db7191830e6b024dfecb258084f4748962ce8872c056b725175ba;
  Double 0x1fa23c12f7f489104fd28394d71dfd3e52e79c226f047a8e036050030f87100c;
  Double 0x3e65babdf742db1543fd1d74953b20323e296a4e9382d73bc6727da54e17d646;
  Double 0x64aa161065bad7aad8abf56680f9c1b032ba258ed03cdad6c086dc4fdb2bf32;
  Plus 11 0x69f11275d0ce421fa1b1f3d0c08821b9a6b33503a5d4698cf49bc31192c5dddd;
  Double 0x4627852d728f801fbffb9062295608b74f4166dd95ed8793ff8aa2e712906f1;
  Double 0xb4dc64e606b6149ded1a38e4ba04a1788452b51cee17c68da40a3d244ebdb6a5;
  Double 0x80580177ac2daa722bdaf66f021fc0062546983aa15e19898018403578754d5e;
  Plus 3 0x814f276879d1196411d7538f94d44e9dbba3e1e8b150d2e63d18cbe5279b4a62;
  Double 0xe04398830685690df5e208459a98defd8832b5196e2be0b8df82c16c77f7f5;
  Double 0xfcd96ffebeb7a47ee4590684b7c9a2e0b8fa03beabd83654d7d76cdbbcd60335;
  Double 0xa740a7573695f572d3c174ed4560cbd69eee3a8e77be3734bca252c05a6933a0;
  Double 0x4c10a29d61779fcc20538fe766b7ba167322dbfe669dcbe6fed8df39242193b6;
  Double 0x600f9edbd10d66828a7b5b61845900b2176abcaf2446c42ae814cd26313db489;
  Plus 1 0x4d7c500039a977386ff5124974d9441977a535400d027d3d012aa0043ae909d0;
  Double 0x9c82adc5593be14823416d07f9f833db891a9f58ca31315a0dca08778edd591c;
  Double 0xff5fa2b8eaa15963bcf8f4d08ad28483801b21e4ab054838b84b2c1b7eec2911;
  Double 0x32057cfec2c8b40d8810f0fd0f1bc108f4d4bf6fbc21b9a5e7e521a26d065898;
  Double 0xab2d3277a3919fb090c5b011b0174c465bd9e87f95553f4ad7734df531758636;
  Double 0xd299815f73c67c9dbe0d852cc95c113c9bdec24feee4972ab046c6be0409c1a5;
  Double 0x5d99e88000060bbfe3515dc4f2ea9432ee61cec7c03f6d5d04ed9c253f8fefa5;
  Double 0x6d1cc0d7c2dc29e9802071b563b982d65b48bb52a2214a5567446ac5d363614;
  Double 0x83fd23a7d0d5689414ce2c822da5d9dc4350a4422722cd8c7375dc27c037480e;
  Plus 12 0x1315609c6d2bebceca343cbf5e1bf3309e7e3c9e0340d08d6dc6fb1be3c96d3a;
  Double 0xda1583e3ad79ae5ecff6ebda1b774dc7dc00d278dd25680f869cc30585dcf0f;
  Double 0xd3718f57d9db98eb139f5f4e3a41e28d035f899d9e91a8107efe15b79a27c629;
  Double 0xcebb240edc61826baaa5297c41e7a8137af81c8113dc9c20ee1933583e3f7494;
  Double 0x21b6637c139ce692f6ff70a4633beb9f5b00a1556f5c064b020b9f0bb51ce517;
  Double 0xba8550dd7f5115b5bbe6945f85901a87ca2182af3b84547ebd99f3f7dc93ee39;
  Double 0x10ac45b60eea523e6fc153044c18f860aedb854d53c5601fe890a186267c3f1c;
  Double 0xf32ff472cfe699c0230914e301546ea25b9c8dd502a166bfbf752f4bf6909115;
  Plus 10 0xc30b8b1d30e4fb4a38d5fc4f7397aed04259ea227f4e57db807413acd3353c36;
  Double 0x13e1aace41718a701cfc777d12d8d44229a07d9deb4b28c637ee82e18b6b8866;
  Double 0x56436ab347a1162845d4c6b9cbe939adea2c4f90c169d40a97e58c7fbaec7a9b;
  Plus 0 0x9b77ec69617f51069699bec6f62797e61fda164d9ad2f53842780fb17e45fa62;
  Double 0x510d851c47baf8984835e68c845e2bb545d52977fc75a523d9580f6237793779;
  Double 0xb9fded35e510eaf5658921bfe5042746076d1426453aa249dcb6bd3495e18ec8;
  Double 0x755d14d98ff4cbf80f733a8570b5b20dd2d2e8c0fecc7ebe2d31bba5e4b33192;
  Double 0x83362c631c75685e3615425a3bf2d24ad3517a0496f1d94b79cc3fdabf3fe22a].
Lemma chain_p256 : reaches (p P256) (a P256) (gx P256) (gy P256) red_p256
  115792089210356248762697446949407573529996955224135760342422259061068512044369 two_p256 odd_p256 15 moves_p256 = true.
Proof. vm_compute. reflexivity. Qed.
Lemma order_p256 : multiple P256 (Pos.to_nat 115792089210356248762697446949407573529996955224135760342422259061068512044369) (G P256) = Infinity.
Proof. exact (reaches_order P256 P256_ok red_p256 red_p256_ok P256_G _ _ _ _ _ chain_p256). Qed.
