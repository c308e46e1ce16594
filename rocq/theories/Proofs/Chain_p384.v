(** The order of the base point of P384: a chain of additions that ends at its opposite. *)
From Coq Require Import List ZArith Lia.
From Verif.Proofs Require Import FastMul Sec1Chain Sec1Reductions SEC1Proofs.
From Verif.Spec Require Import SEC1.
Import ListNotations.
Open Scope Z_scope.

Definition two_p384 : Z := 0x398e9bb647af27db82eb6364cba7d64252ab4c5d3bfcb59ef3c1276583b9a0aea40fa5894752d433118ffc8f4795bddf.
Definition odd_p384 : list Z := [
  0x2e3054142a14b8ca18c4162930d0cff587f46ef6a015ad40eaf9fd529e5dfacab873a2a104335fc5e9a443da964d50fd;
  0x9fd487c6e97787ea6ea422f073c730cce204b67ef2ee96943d624c92cbf25cc4fd46cfe9dbf7ce946321172b0804724a;
  0x9e2bfd93ebb2fdd190eae972f8368c9e203681e23d0f4c29122c9c125a324b282e1b8cbbff1081d445c62d5f9852fd9a;
  0x547de7dc213c4cb5c4945149fdb7fd5ece649eb8281548ce2fbc5b4c8ccf648f37045a27bc6e1f55c90bb0a54138aa64;
  0xb01ecd4708fff5bd668517469e0f212d0b838768a1db2ec56c2d7e4bbb1b6316455162963bff5e241360df7b2da38914;
  0x291179e8f6afe2ed21bc665a73b47832b89dcbe68e7447ad94923ebdbce51d1a8fcf2afa6a52e33f7d14c3fd590a54db;
  0xd4b994b2e5e7c89e180d6eaf956e31c07f25a7629ec39827a285da496add285680e4dc723c9ed4859c17cfeb0117748a;
  0xeec272ebc23da50e93080017cc15ab7517eb047d5c42b53b21a00af6e58c97709401973990a970ddd233c35824dc3353;
  0xd6effb96366afcc3832b6094e7b4d86184eb736237b7a0ec9f7a81abeeee3dc11de3b91dd09f591d31dcd1950d7f52b8;
  0x230b69b0ac78af9cd54f2824a79940e4fc8cf152166613d4a9ea8afdf7aaf03c596245ca46b37709d4281752b61d4b32;
  0xdf2a25becebfda29ea8fcc04cc4a5ef1cb1f36a94703ccb466a4d5e5d4f64bc2f062cd790606be91d6340ca13f8f38c2;
  0x1d3875e1f569711297d2b2fd69917699b485660fa07b83f845c45e4448c8349e220b407addb9dc35e7af7479706e7bbc;
  0xac917b2ae1f6d17cc9f831fa5f935fd00a1fa8d532f6d4fd0380a2aa204d0799ac77ff324416c3cedc9d10c1dd2e2aaa;
  0x8b6f4a25ffd98f737faa1c7061aed4e36a8d0f97c3c97705b81e28b6da4df6399728067c92fcd3c208065e27cbb51c94;
  0x30c06163295dc8b2b98f577b007c8842dde912943d99b2ebb952db53219c5f9c29c8c39292c220f0eb6a8c43d05e3706].
Definition moves_p384 : list move := [
  Double 0x141afa9c96b885b8ab619568cae40659b114bbc6677b32963f073fd4af8f9213d60094ee73b573ac15dd34c74488a906;
  Double 0x6a5b6863a04166331f0e7206ec6183dcfb9f09244b37dc38cc72e29983afe281c856ad97afdd9171cb59b79a3bf03f5f;
  Double 0xf694ad13d9d6dc386b6b2d13f807e1abe05904fb68ec7d211a075060309bf6c289162f9fceff68bbfd4d31e3283d5a6e;
  Double 0xe57538cfa6c0dc488ca7c0928367ff8e0f45a23659562da9f8ed1b81bc06b2322f2278a0ecaafd04c2b4906cb3f1b668;
  Double 0xb1d411b6f8b06d825621d6154eb54d813dedbee4d2f3f81fc1e395d554518be8eb9463cef841f6dff0eb7d4602c72538;
  Plus 15 0x44540d675a01c08a420bca2900d8cdc3136ea6616a5e111c686a21212ce0fc530dceb44828ed6d675b807b134cd5f19f;
  Double 0x784c65c5c5dcdb276817e94000e5826dfef0035b155149b726ce241268922f1af704e7578afe91b8c8ac6b77c4b44338;
  Double 0xe10f2f54996e46e40b3caeaae9d6df6806d2e17cef23a000e724eda31a89ddae4947f96280870414ffd9aca87f5066a5;
  Double 0xd53a2011913a36cde783fcc1d222bbd466502d4a6e06bcc5572d7711af7791a46c49f9e1baa1dc7170dfb4155261c5e8;
  Double 0x9f8d778dd42ebe14401105369795ad2afc41459ff863af02219e498a950099a75c56d9930c1fcc03ef8ccd5951d605e9;
  Double 0x2b20d731904439c61e8cdd832cb9140e08cb66c35d431d5b1431a9f2b5a490da0cd0025b5ee6b811b116b83d6b50765f;
  Plus 15 0xe13b952daa00c7f768ceab316197028fc9cf06dd5ac54d17a3a8770acc72350c702ae0eecee0932c267a85a7413f8b29;
  Double 0x76ca1f13518e4119a45ebea06bff491c2d8f98e95271482acee9d735f3620722a443a0fa589c60c9f8a9222a949e6bcc;
  Double 0xffc784eb6fcf6ccf55d7777706d8718ac6d188d2a5c17c6c1731271a59d66fa97c9ca47969f787d5d4b713fd43b59142;
  Double 0x7b56a6086b73191bf9809b083cf0caad201da92791c307cd972afaca95c40047a6f3f202caebdb25d5e451ab90dc36e5;
  Double 0x6e9eb5ac577992a3a991e836c914e6122a452a49fd93887446cf239fca77d9dcde93fde0af2f51009e64e8a43401d06;
  Double 0x3cecca1d21c497d456660a1fb4393e65467774ab6318b6622d29b024f6dcfda71f1e99c4dd1b0084beff00d87102db83;
  Plus 15 0x6a07f799af22fde5fe762c4fc5cf5df2cdb996435023f47f63eafc8bd5869d6a26e05d0b4c0fce7e4b3e866d1bf5acc2;
  Double 0x3caea18b548e37a95c363498efd30e8706a25cfa89a6a09fb9d5003edd6a61180f48c1fc086f8b32616270745c1296ba;
  Double 0xae1f75a1084d7524c503228a861a964801eb78e57e83825551b20c687e0c367af6ca205eb374a6d4ea674bf7dededeb;
  Double 0xbc52fdcf2f9039995baf6b13799349fe2524e6a78a7115ad879de0f9960a220ee40892911cd24082a77df991eb5d45d6;
  Double 0xe493669354cfe3b4ed970b500a41cb3200c2071cd3396a946d45e14e52d6881289ed6215603dbdfced018ce52b863d6c;
  Double 0x7a099ad681ade5c8b83dfb8b5cd526a107e4b48f0ddb583a31bf80370b09e755555c5bb47c61b57b22063535511bcd9b;
  Plus 15 0xedb3ff5dfdc9ac3a4ad12149564872aba03bf87e7ad0f49c60b14ac855e11d7b7e7ab2e0d57ae63a7547d581a0a3a11;
  Double 0xfcfd27444fbf13c36083e2457b8f9da345053c212a43e8a839a8fe760bbd4bbefaa309a3abe421eaf699b1ca07d1ebf0;
  Double 0x491d1339b1238667a7dd2c29ee7befecc76d2e60e3bcfaaaa006e24164211702e34839c11be0d01e13dfcdafdea88a64;
  Double 0x39e7b2e29efc19d7e1f983c142f86b0bda6c46ac04961b284346f995d25b088b131e66cfe155538f06f74e39c37e4b5b;
  Double 0x767e9f87a5729a549c9b0ce0f839794e37cfed9fcaedbcc2be7c4b9ab98bb7c6fd099477c74929fb8cbae77b87b0f0f9;
  Double 0x802469c50f4fb65ac22b5da3ca4be673801c40d52e182cbb70bedafb1778d03fb6a0956d5c86dcca0d360844e968960e;
  Plus 15 0xadbef1f131c52f19aa6d1f4c11f8f8475f16e574ffec5fc311aac0cf0e3c9096acc99cb0492376d2262f93ba4ac72fd2;
  Double 0xc71701370de96afc5c5b44b6ee6d2174637dff3037b607b354af580d0e915c2872873bb9b0171d798f0aa31e7f1a644d;
  Double 0x4ad1503139a90649e40350a674e278b7f5c6d81ffc439af3dd8818d3588781812f3af9f7d66c8c679bbc163b152fcb04;
  Double 0x3e93ec4aca7f117bd472a80c7c4e1980ade36d6a0baf7567a7d05d8118e81d7c4fc2fefdeb9480b13b0eb3b3965910b7;
  Double 0x57f4bb9e1e0463589ce16d301d3742ed298295e5cac8c852b83c7c8fe70f370727d422cffabd328bccefc8eabb1d4c24;
  Double 0x2b5d1bcea328bfdb6ef09440e65f360b1707fa95b27ef425a9da06828db2c79518fa2fea6a74650a27831d3543a19ab5;
  Plus 15 0x242510dc0dcdb94f117aead30ac86874bb3c221c4a0db27a89e0597a2361e6015524a5e5b6247a4f994bd089391ec0e3;
  Double 0x2e3373cac7fada9a7971d0f92a2d4c780640888a881f0efceff80293d0524a2c9cdaa492ffe3a5794f988b09c2b37320;
  Double 0x4ca0066b154669fdd1decc449fd63e7c7a1c6e2427e01c26c5a0b71b89bd04b1f1f47e1facfd9675bf2a7012aab3868e;
  Double 0x5643f49f868c7addd1b653fea70ffcfa86f391a88901f661046da726c04027d62af330343c893449e9608ae32fc221d5;
  Double 0xd69e7de653b83d4cab1cbe72a0cc668888d4d2ac25c35b1ef52ce71b33163db77434d8e0425eba96dc3439a537830f37;
  Double 0x2715d2bc0cf8fb5db6b3074f71a50c3d60db673877350bd17639bcc6772ec28279ed4ccdff0b87a3023fc530f4be6e4b;
  Plus 15 0x84cde559f23aac5b6c1a6f84146b44ab2e62be50f50a2153de9958736b130ed9d1f884fa54ee023821e2e8296ce35800;
  Double 0xcf07b6db10a90d83a48c1d76a35d5d8399f417e868fde39d06e26dee27c65e631bdbca31fbbc257e432265fedac894b0;
  Double 0xd9d421e8758474e00292e0fadbeb4a8324f015796bc8ec74513f5278502d30dce2faba9e17c37a1e30deba3f4163a8dd;
  Double 0x89857c971226cc1bbac037f3a3741de396ee98550aba04722c88911ae8cc32d134c468080edb33ec79842e761b14e6dd;
  Double 0x6d03eb56a4691ad6586a397d9f15896790971f4062aa84fa502a45e331119c3b76bbc62d1b69b3be5f153fbebb692c85;
  Double 0xf6ca971edada22b41d9e9f9dd7122a5f1bfafab587d47d9d8d9966da80613c2aa173dede512847d0b55c62ea64c761c0;
  Plus 15 0x71b015d2c0b031dc184fd4b3bb7c1468caf023935846e8ffdc1b5c68fc4182e5851ef96c0fc32094de7de876f867dca9;
  Double 0xbe019f4e096313f8c424c9c51d7a7627ea2b283369702fd00e07414fa84231996d04fa1ac0cfff2060cec51e6cd8a83f;
  Double 0x35c51d514d0580a13de98c17f1de10f412fca8635d6bac4a720e6e91dc1f97e24ef820a7eeaad5b6f1b5ea504ab32a3b;
  Double 0x445529ada37a60b5acddd5aa919138dcc987ce9335ecd0d742c9a95afe9413e72a49437552be5f8f977a98f4970eaab;
  Double 0xad428aa578ee8280e21287ed4d4ec9f94bbed429d7bec9fbf5c4101ab3e102fd5f7c8fcba90b844943cf345a2c89651c;
  Double 0x1a2ad4601138445d33a1cab3b6b70db6753caa935ad243b96f7447c4399ca21548f87d4b6e55726333073efc87c3534a;
  Plus 15 0x9c86b375a8f3d4da1fcbeaed33393f7e43f46195efbd858968e0271388f8cc16caf77c7471d7eda1c0372f8282459e2d;
  Double 0x47c2cd22f8a95e6e29f53b70600e000cf715bfd9ab2b12a7d0367da1abc0b71c4d9f03cc0289eb2a4eade19b6a1729b7;
  Double 0x1e3c00efd7706dbedd870317ea73e6faa36faec2fab98d91b6ee7fd6467884b158dd53cb1b5c6c2bc51acaf870255950;
  Double 0x80fb3f9baf9e7e0c33396234a8206393d05707d2f13a1b19e076cc966904c38f8dec4fba7a18e1cab9b49403e78da269;
  Double 0x7793ac8f8ba8175a7026b1de04f64d75a06fc073b2014b9e2e95400696ae22bd7254a5d1506f06a5d08b4e25ff824071;
  Double 0x7ba2ef17fd661c21765dedf1214d27d15d9833c62ad6d7374852ca3a8b2b0e015f78eef1af3b7404eb60a47439399f81;
  Plus 15 0x5d5008eedb2cd86af57cbd6eadb6230ef1cbea80f188020ab00a332e5033373416a21a9ef2c4145210d32a2cf0eb6326;
  Double 0x9609ecb03d06360bf44332fc28f63617ba4cece2a37419e53544c0dfffc3cc52514f40097561e494873806febb5e2478;
  Double 0xd77bdda689365a7187de58cd77739fa38f8bc155763f8137f1f32692b4a76a0fd3950bb8e59b25481d9da8d305cac52e;
  Double 0xe206d41dbdbce36b3587ead9ae6267ac2f69d009bcf0bfc0da2cd1ec9dc46719aebd849cab1735d6125231058da1935a;
  Double 0xb7b1d21c5d13a95a4f413a174804c2eef76d6e7d941b6450850fe42fd64c7560ca2af781f1c114de711b019af4c66a7c;
  Double 0xc481e7f22d4e3f70e04fe779d22a2c09db6ca782d422b85d4dd73671d7a5a6c4b17cd4cfd9ea012dac815d563359705e;
  Plus 15 0x3818d8f02c0e5f27115c3642830e1c17f4cf9f364d37dea1087736039792cd2f4bbdfd8e77e7c92d8bf557b56e4d1995;
  Double 0xdcf2ab8e4efb34370395b173c98175af1efcc05391da234996763c9497ffd8c4b31acb203a6f34731d1e0395e1fe6567;
  Double 0x611bfdc333c5ca96e78ac9bb1a1e531c863c073ff842348477a8681d9f1417430982dc06693c459256f1ad86d0a1e57d;
  Double 0x8858c613ad7a3124abafda1f79fe9422db09f68ff4a12b82e1490413173a428a8311cea9065434927ae5332e492baf79;
  Double 0x9035d1f0f51862ab0c3f2fdccc19c11232d548ec56699b1b7bfe676462a48b18f7f4d047fd044dc0455388a2fbe03a0f;
  Double 0x325e597208730b1c9e9745cd3eed499e570ca892c73b62603bf6656ce920c823ec724e1b035070bcfa39fc89c112297b;
  Plus 15 0x229b192410e30854a6a4fa8a6f59793de7ede6400ff58712081be79ab28808e1ebff4c41238c4b018b01f702ddf80a50;
  Double 0x5c459b61c73336f6409362a44b01763d06ef9c1714b9598cfbdf3a10c5f5a02b4c369f3cfec72d4d37df3a0be9e9fda8;
  Double 0x81e068c25100fba6fac770bc666739847f68a059957f5c1ec8f5a75a60c975fe6f82846e87fde9ea53c3ff4d7290a66f;
  Double 0x4a824d803243072412b5e70cc202e5fa1fcda3e7c48bb5d889dae1c48c9a98c3dbe8382854bfd01636d334bd1ff22fb;
  Double 0x1480315bff0ac3e3d1e0bc370d49bf4a29bd1a23dadd8f8c0d537882065cf20b2396aa3c9f539b92f6689ddc74fa82ca;
  Double 0x1c5cd83e2452691c6e675d8c036a67801aa90041d11c72316b800a6b10f7db45038ca63f0ce975ce7367512a223cb176;
  Plus 15 0x51ca1622945355e26c3d971db1a8b90981469eb93e5df9fa4fa3c25ea62a9c42ca3df7e4f1cd5ebe513dc072e4295123;
  Double 0xf8a0197387e373b58dd0ccb0c961a1e6b58040d2485ac29d9930faa2cf3ed90f0270bb8f2ad2a4b4858868c1062683f7;
  Double 0xc1616a908afcbee709137c299f0861e1e42aa9626a1649af2ae0a2bab6f1c73d4ac2207ad6ef99a0684c9391f01fabfa;
  Double 0xabba7439517f3bd830c9ed887993f2b22e6e51f2150ce31f98044e43682fb91c0c2d3c0dc8e4c7d3fa6af274446eba1b;
  Double 0xbac1b51a4cd13e9d1dbed10a1c36128873524855f25a9f6ff29531f93b4c17f349e1e47f00533d52d57f580737bbe40;
  Double 0xbb6eeefaaa33e2b5cd16d7371c87db5a11efce99f03a546453a03a92133ea25cd22c7481ce08f3a2497fcc67657baaf2;
  Plus 15 0x8d941c0a26ebff8cc1552ced5f375122440a8ac99bf7a7fb22c1b56720bb1c5870fe9149dc768559af821e8ffd1bd2fa;
  Double 0x3fa7c90aafc8f41c0a681d7481598557f1b85435b426561617d449fa753d4b3422ea1d34c8a1345d1a6d01cff7820c42;
  Double 0xe5d43b33f613a412465f93d49918eb201a9929a7516c28561e6e8e63ab804212556a7bd0a03bea1c562f5aee58ccc024;
  Double 0x494ba9a1ab5500e45ddcdbc5acf278b98331c6c1f8fba2da86f3709c9bc8c4e96422e2ea521be12f442663467257fff0;
  Double 0xf7c0e784ad08bbb20eed036f3605aa5a45ec50caecd1377d79fa29a62d277a1de5ea02b896a9e5ac6884cdbb07985e9f;
  Double 0x6e1aa9af9b2f6d200e5a9f8486d355b6364638038d31e90bf464d9745c174da83386838cd0621f2522e8a1704a0c4a0c;
  Plus 15 0xd7f9fb0db7a124b52e6075ace792530a525fb62ec40b8e82422b3b62c36a0d8175af12c28d3662859d278e4e35ce64bd;
  Double 0x4abd1f11da58bdc3dd88de3e5db5f875372252465af1fe496754d17bf8a67154cdfacedd3836ca92df92df85864798a;
  Double 0xbed64db22e93528979882580e6eb558df6668f24ab54ecfea543c679c159b8c7f1721ee87f4a5e9b7b17fc7271c947dc;
  Double 0xb4e3ec7fb0917d88775d38dd65e409ad124f607c10c0e0beef97164f9e9511241e2a31d6a5b9b94590fb3bb913942223;
  Double 0x37ed14f522cd9cd7e964b477cae657cf4570a5a2279b8edc5ffc2db97546bbc97cce02ec56e8c92d79f649f81fe11492;
  Double 0xdee6a86b8b97b3ccf8961d987690dc5bbd73eb5de3f8eb92d90df8391ce622a3d2e80e5fb0e11e6439a84619a80d068e;
  Plus 15 0xf0e071a2636ed593e4cb08b978824286b638608f70250f21c86160c99804165a574a0e8f0a7214291d9220a9b1ccea52;
  Double 0x6c0f95fc125b7facf099e517211c69de4293b7021358ee93f2d9e5083623ccb65e97b3ae934ce3155aff95d00e3c02a2;
  Double 0xdc8379705ee1f0c15d808a5d1c04662b6c691661bda0695d0b310afe793c3c7c8e697909b419901ec557365e7d401166;
  Double 0xf6965dfd0f0bbb2fa5e7184fa08f0318083240d76c5020db8d2c009b73a5e4e1387b0cc90f554c6e2a0b6e3a5147ffd9;
  Double 0xd0ff9e6a78185113c2bde5e9557a6be889052120f5a0afe2baf6b89a0a43d281c89e5b76d356c627d4b4801c3f2cdf51;
  Double 0xc1bb0f338acbe581224d44e86e08461a57aef439c8561f39d3c74a31b5b7536ebbc6a221b8631e174cf4040c44137fad;
  Plus 15 0xe6c504534a896fd6b8a51eefe348ed6ee0da507f22ee814cb7eaa4065cc80fd1bd32c66b00feb25da590c360a6b24cac;
  Double 0x207757622052f4c5d1f4845bb15b5ebc03bab2123846b2f8cc2fe7a13bf04eb3097d7ef399626185f1bb6ab9210d54f4;
  Double 0xa5e75cd7b4a39c2cf1e3b95ffa8cbaa086cda0d139596fa63121a0b8b9c181ab724dab6dca0365767e38dec1eba21227;
  Double 0x23fff2894044efc73bb31c4d263c2a2b4b0dcd3dceb7fc7ef1caa15c96cfde07720263d9fc59908684ead3380486b214;
  Double 0xc55c55ac1cbe781cf83e29ca601fd713b0a5274eabebabd3d7496fd5513f73d7598f8ee463ff9dace79f27730ce6099;
  Double 0xdf035cb3955ae0cf2fff3ad0c395c32607189319eb1eb68af8e99144ddc99c39d85ae21a6470905d5d9e7955f3e4b71c;
  Plus 15 0xf6c8c922a9474667c718dd90f237a353f115ea1392665f9ca7aed4845c8a6d2059a01d10bba8e1e79c478939fcf59d4a;
  Double 0xc3440b298692be8b4f8b2c174f4073814428a341f42b5ab1f8cbc0c91bce37d9f20acab619aa6017d682b6a2e285f77d;
  Double 0x6217eb0a915a815c3c7033bd6ebc45066aacc005d20ab4101eeb145a9af83aaa7072c54c3ef4f3dd6ea007a2de997d90;
  Double 0x352b4e78a1087e01dd153904d5d69c5b93ee847a935483015ad7c3d0d19722f8978dd5906896c066b1f24a385e2cbc97;
  Double 0xc1de03cf776d1b2578ff147d9c0bad558d42510bbcce7158b54fd45f3a7e178f6f761cd8a9c74fe2ba260515302de41;
  Double 0xa94d5e5ac73628478862471f8df4484e2864d73ddb029bf5e51a32dcb4c0d8536b30d28755d5c997c751071b172ff810;
  Plus 15 0x4a4dcb79a26d06cf2179c27e1534f76ad75f7dd8fa04776e3d07e52a0b116f45de490edf9e2099e87bcc998fe59704c7;
  Double 0x1d30178501ea72c9da120df0ef5f5ca65e1560e1452b036f3a9687c2b8253399af6531c0085b19e5f429257681434073;
  Double 0xdb725c13252afafc2e167e80269d1587ebf2df02dcbe844fc97039afd17a31f8950ff820c3765c1b95b22dda79aab8d8;
  Double 0xca97b9bf397150b08ebbb8b0f8bc0edc9e623261699e5ecb1a4d3f1aca634c5058c67aac944115fd400e2b414ce5c9ac;
  Double 0xfcaf69016fb423f10a507b9ab05dcfcba965c8208113c6d11d8ca37e9eca8e54031f1e336408cbfa3e9b58000027aa43;
  Double 0xc717af1642207e6e3ea1719916d66a472630eaf2d7ebc7746c48df6a3c3c266b803481f9d208bbf80f4866df678892d4;
  Plus 15 0x4fffcffa31da8e39201e964931c761f5e8da917f49efda9be5f8bf9c8ed9256f7955c3bf0efc019bb75fe45f23f8b6b7;
  Double 0x9ae0303e6ab48e776f26dd9a3e7fce469908948af9ec328d736a757b2eac036bb142c7eb52c7433c0de58ce53b782003;
  Double 0x48d9d0b4ac1d7cb73ddf5ed1d2b8635cb3642e37f3a40cbc921fc02497f89a890193f2f3e949bfd31bb742e7047016f2;
  Double 0xf9361ec572aac225074d9ced66b35f65d03e1406253cbce0480a8e448416e997075cd333c1862e6cfc44e1c7b5bb0ab8;
  Double 0x5afcf2ac6e653e58217d24c25cb8742fb55f7d8d9f0001b7c1e6a507a09b1bfb966c162341559d7b41bfce8499a7a032;
  Double 0x8d59b5c055809c2796607bf8a984aa378492663c79b0f17853e8bbf3c814fc6eb56e93b58fea824cc9e70836effd4228;
  Plus 15 0x155343b00b45c06c96fc3b4b24495539f0f600222637d1d3c6e13e1ec8f5e9ae07d0761f1aaaf09c704b46da78a4fe70;
  Double 0x9e869275543afdacbae64dec75d4495be87c63d399dd096ab505aa476cc7e21b6e256d934baea3f4da221f2555307892;
  Double 0xdb2026074461a22a139091ad6f6138546b1114b031fac8f3cd43db4967149dddf008b59086f08c076189f02d92e0512;
  Double 0x8349598982969fcaf3a635813482ffd06386204939b429f426d60ac2f3e5188faeded2bba627d15f05ddb59b93bc99c0;
  Double 0x830f68472607268898c62bf0b14ba2e696418d30538240127fc825a626fc5e2445496705fe885d4f11a5aabd342195ec;
  Double 0xb03f683e1ffead19b09a2c0e4d4555d0188ea836c296401c2a59b37affa38ad6ecf7777bce617e7f09d81021a86c66c2;
  Plus 15 0x9e0ea30d75302a33136a0218136326ff472ed25e2ae3f26735b9becc88eb941ee38e7a7e5072fa91348e27c3c5296d41;
  Double 0x26b2645593f90f231547bdad79228b647fcbe00e4f72ff38f86341cd6b7c84e794af40573d7fbf4851a2fe4c1455d062;
  Double 0xabc2a8a7ed96cc18d593d50257dce0513ded92ffad117ea065d580bec0c5e155e124742b4ba8484817c27e42141d7c67;
  Double 0x49679a95e173ac058f2a829a16cc6ddb5a6d3aab4c52dd01ab3ebc0c2c467b8bf8216870b6070fa9ba59c7d2ab78f063;
  Double 0xbc7c73f63342c959596bc044912c0275b4cbf3f3bbad28d991bfe2f533612f7ae54df411658f824c329a81992fe89e05;
  Double 0x5bfac6944160e28c6c4da0eceb71bb249d7a2c6106ff6bbce4d8571db1859a9ecd620ec139dfe27be5aeb423838e9bb4;
  Plus 15 0x345bf0a64ecff8bc6f20f29e72eeac1a7981ed1e7f0453fe95310d2e2f8eca520d305b188f25dccda433bd468180b9ba;
  Double 0x5bb979bbaf679e7e03b4e33362ced849904796373d8993512616fcd35443a8cb28aa25f728c0e23803528c1f526c235;
  Double 0xffdb6d72568f43b3ad78020cd390f6608584361d8fc3da54baf6f8ecfa3004f9b5a0c1d6bd9ca7031b9fa9dfc1ef5527;
  Double 0x39924a8c2055941b8a2c352ee565d39325fca9b36ad41c6a14016610828bf946021318332c05383996e121fa7d37a62e;
  Double 0x8a06610d63d219ef15a06a63f61d557f2e49275b52fc0b51cd6de5d2e990226496d80cf137383621620083e6800905d4;
  Double 0xbfe4266dec3ceb6adb96e7b0e84b6df38d90667b0ec46ebb850d52aa97eef690e61c6ed9bbe697b18397f540b6116c3c;
  Plus 15 0xc955e71bacb76cecd7385cf89325afbc45e8393463640b4bc26114cb3b15ae11c51b81a2d7ba8b9993d40a4439a563c7;
  Double 0x5c5e5bad5b371542e193089dbe597c131ba4c49139dd17303108d93373c1b956ad569fa47abc9442fc1b6cf04699bb61;
  Double 0xf4e06968afb4169305a63af79b5011cf5c426ddc4b651f77cd0c729d84b369ee4a88a0db31cc51f0dbd4a4b0151bf000;
  Double 0x8e1796ac7bad2ad649ae89ad479c7f8d2d51e9fd0bb98304364e7c389b68e800b2216d594b6069d15accd40d5f1d790e;
  Double 0xb779aecee359303f9bb69f6754b9fa525b097e7ba274e6b5245ed9e4ba519d99577c299961624c83b16ef42af41d9698;
  Double 0x8f5550e892ac8f14f33fa1ec48949edda6ea182e94105b5e00c7014b2c8566fb59b6728fee2a1ddd4531faa5d8c78806;
  Plus 15 0x9ac289d75147a1f62fcbd7178a3efe5267ec2afbf74a5389e9b801238649c08fd8c2249b4fd59ad9b17ce04667ea6f61;
  Double 0xb69ea279aa49dba152d1a39978a12ebb3ff279725ed30532d54c461bb1afdc5d25df640c248aa8ee3a81fe14bd3a1c20;
  Double 0xbff23d0d0e98e39052cedf25f4b9e7a41f1b84397ab9a2c2f59925b61405342777c6686127ef23d94cb884eb5a9a2e75;
  Double 0x498fd3cc0877d79e48f172986d772c826c7ce7c454721267db7c2f16f628385dd12dc295d0d00d76988a82860bcca810;
  Double 0x68c404a775d0ac7db06d557ba05fdb5c734583deaf833a7e5b4e622c5f4dc649375a963019b21336e985fee420d16286;
  Double 0x52f974ab8ef407cff3232e7c76b92a197969211b4b8add47c5004a83c91974ceee8efe44785042f967f58364eb61b42d;
  Plus 15 0x5251c11f194a59b9a4aa90957cd17a8414a1bed04b06ee2784ee5d3b2110c53db78bf234448d0ae960aeec329fb3d625;
  Double 0x31f4f44193d0ac299aac8ac2de5cfc62f091e2e9bdbc8a8ec451d585d8088623b174de18316edc6bffb7240f5616e8d2;
  Double 0xebe5cf94d48d50a87eb878556d00d3452e2bd4c804af0d68a84a4f9a66809c39e3f57fc555aeabd8c06c003a3d7b0bbc;
  Double 0xd6f7bf9e54a132df02d38d8a43ed04df40e528c36fdc36775cb455b5e84bc77cc8061dcfb017bc9950490d3071e4107c;
  Double 0x1ce7738ed42046f69840f04dec20db13b6f4641048b09d428b249bdbb6f689f9cd1a47994040a50fe441dacfe5146f90;
  Double 0x9a646607bc6d8fc052ab4ca8ba65c90a45783801ec5d9c2bd3fd265c02dc960ff4fc7a8b4d53f188ae1d034d130eb6ca;
  Plus 15 0x49b7f99e7612ec9555f9f41544beebcbac30f1f203b76a4707ca12e931d2c34929914de970d388c06eed93486a60e3d2;
  Double 0x2878709dad3e76b96356b8bf13231a9ccca9dae41f611736b2c9fc964865e1effd2f80c564dd3c03cd7d653e40a9457b;
  Double 0x9eaeb527a4f162ceb52d81a8f49a2dcf94675bd3c61b2f318ec12dd91e88f5ec83c8c495ac1adf58cd15e923f4c0fd3f;
  Double 0x1b06fb6eb28442a84f09369c4122cca222f2db9b34836f75a8e8ec58368ce6140db7bd99f5fbc71f86dd25a669d4179d;
  Double 0x45b757e5acc0e5e2976700d4a7745ea0ce7665708fdec441dd3f714c9d5d70e69000ab4ba4db0db69c8f5cfa98ab1fe2;
  Double 0x61f870259f31dd6f07d3be3cf571fbb482fecbd945d02b0dee6f5d2a2abacb95055610a7423fcc57eaa237b4b4b9c8c8;
  Plus 15 0xb8e0292e7bc76b1ad5b98ce3b3eba059c6e725f34909624f0a83bb74cc1f6725d7130904bfb2d8d789ca81911a13a7eb;
  Double 0xd73afcbb382a3ef7bd1e97ba7b5ace67665d92ff3f6d663457a73239b399539cbadfd1ad35bf64a051acd3fa9ec628ba;
  Double 0x9d5da91e3ed43c8b42bce1643ea1581c9fac296bff6db8f7773ce1077dfd09946101cf0ab0198c8b4cc98f6512be363;
  Double 0xc47826f1d2cfa4f339d06f7435ba5451d507de79737e5bac61084095e0b7d769d8a7a8f80482f3c14ae9c8af6534a552;
  Double 0x9b31ec3e17a611cb7a0e4cbe0a50b7d8eaec27902db9dbeffa4f4b24bc4bf68c7103ecf70193be1fe5f5d65bcb69ec00;
  Double 0xa1bd9602ed8712d16f254fb6c6954add24cb0fd04310ff7e453f5e80c0e63e854b90be0ee66c372b2694400032e47d43;
  Plus 15 0xec40c0ab467a59942816e855aa7289924c1d9cabfc9ebbfb225b9ded497ab9d16570beb908d2fd45a26c49e89b3fb50a;
  Double 0x49d0fc3c8fd811c5cf73abb10112a5b89534d0b8e6904ead6c38c0c72ee934926f1c3109a23c42c904668bc3dc6ba86;
  Double 0x4b1ff3f8b683e31f26c69590421bd7db95629ed04c75d54c13ffcd79abd9e92bd8bac35ea1717722c7520742459ae621;
  Double 0x1bf6b9c518a7c28e206e13de64bbbb62d322510ecf6cccd1c207f88fb23b1da1f2ecfdb13e5254e36fc051a4f258dc3a;
  Double 0x8b43b41ca0cade3c57fb23326e66072630393dbd882e6a48489382e56b3a5de6f64a838867ffd94ec3a2601b309da430;
  Double 0xf0aba463fb85c0417ff50336ff22c820115b7f9e1107f663f0c1f077a8db902e7d81f62e7265a19911b0f42e48b06a85;
  Plus 15 0xa9ce075a21b318c58a2748769381bdfd0fe0c3d103a3842dba9e4c538130513f2a2e06580e6db51cadeed90380cd475e;
  Double 0x76d909d43562a4444a2351e108de4febb04ba42a13ad029b99da641a1c2cea648721c4b0f59e84217f93303a82c814bb;
  Double 0x22ff50e34e3eebe8b0142d5b023574ad59824b6fe67ab378672302b9446d138c60f073513993be282cde6a152512330;
  Double 0xe64a7b465e0ea3543c2c97f055f5410aa45f85d4e916ac3e436603aaff0b0264eed26fe4f03e9e293d7e6a7a23cd4237;
  Double 0x45b836f5248b9be6a3cd3992b95b9f6b49e7a02fd92741613824add0b8a5f71702957f083932a3ceaa2f488f71f6aaa0;
  Double 0xfe55e808ee2313505d42f6b7b798e4913e114f81e369c7360f472db9921260178772257473fd06dbdbe577491a7b3be8;
  Plus 15 0xbb51040e4bdcd876a5b45741324e5d8eb4292e8fbed7af39cf4439bfcaba82467c8a2a4fc5618af2e7f77ddb4d1e41f6;
  Double 0x424b3b970de39498781987b4afe5186c271b1c6cec7186cc75d9776b47a26cc9530ab228f4c1720308224a3d1c7d6269;
  Double 0x50bb8044519a946ab2252d7aa578ec50c202d5d497345c4c81c4a01d4333622f7301d6c4d2bad78e5d2135fb93562880;
  Double 0x34ddefc28025f135ac67e606c806fe35e29df8c7075f9d41f08524bebccc082a051ae3e12e26e48ca319288045e4224e;
  Double 0x98f77532aa8eab0c7ff2cfa465dc808947acf1a9984e3b8976871ad2d88db42ae11413d534756c518bc3d4d129e0f663;
  Double 0xaee14decf78c6190d5cfe6381b616e91d08f885a236b36af51d21ac5d323258b481016dda253489c0ba0b74cd10e9239;
  Plus 15 0x25fe32679c3bab13bf07d74bb8c46b1d7ca62bbbbb6be0e3f3110213c4c556f5055d8529edb80205728958a757588c23;
  Double 0x2e257e025d1ef1b0a82da664c432fcfdcb4da67ada0ef284d3e77f467c1c801471181d01987b017ff147a49b1a0d66f4;
  Double 0x9540bd4be64ebf529c9a6865c24bfdfde7622ebef97320398ea1ebb3c83ffe7c4d66115f2cb0dd85e7a30550fb3c544a;
  Double 0x805ba6f6b9454150ba00ba26c2c9b0214f30ecf3742e500eb0ddd09cda9c254d84655fdc6d1c9c6ab3e20b799422185a;
  Double 0xcf1cff6792aacbdbbde13f90be7d88e73b0a58e5e54e120ee501c6c228691e06c6bd3f0af86d2f6eca9e2afca6fdeefb;
  Double 0xb6ede6eb5a6c4978fc05aca889c296d92bfe07143a6415be6837bdfa8fd6df17afab12ae04c7be0cc7dcee3f82f06efc;
  Plus 15 0x4dc4bdc3e4fa449a1fdac017b86c44965f8a4942cf535c593f1cd562675236fa959d1e9bacb0d7d09dc70247e67a0a95;
  Double 0xf4f210aaa70a2792121e4749e973a9db325fe9fdb6036c88afa0c774f05348c60679a1d03059ac49375ddf247db8b4f9;
  Double 0x822e2fc880877b0affb138c302dcaf4b10a55293a73898352503c32527a9fc31e915510e427de9c0513eef2d9ee4ad40;
  Double 0x21daf16c1d8f739504a451832d65119abccefb0d8600e562d1e3c1fb32719f2f8ae76c517f2e4db1491d25bdbd713aee;
  Double 0x4c25c74a1a5ec336ba621d781610f3fcf1377a3ba21d63df018a20abf9a243afbcade4975b374afc625db80639e6ea63;
  Double 0x869502dbe94af2c3bd8202b6105a1e91f81d981792ad8caa78cacdced14953108c6c475d4b18c8a31aa8259aef0fc9be;
  Plus 15 0x938820effc14da71dea57befaa6178555755b592c6c422ae7783debf951e3f9b19af256aec329d727db8ae30fb16ea1b;
  Double 0x48f2d3a24d01258ad568a301d2a779c9f0d9d3e4e936d4671a2c957b8af2d36b1686df683f2f8f139623895c635c4cea;
  Double 0x3c7fe8cebd64172ae1c6e90005ca113150363b101a6d627fba588e1abfbceeae60e616461041e86ba642f091ae3a441d;
  Double 0x5c00dde62832eb1c687788117185099ce363fb176522fa4c5052d97e47719829619a20f34bfd54942e4812c1ff0fab26;
  Double 0x7f09e1ede75afa6ad0456a73c5108338d6fadda92e55df0d17ff99a76523e70f95cdb42c8a84594c927568eb3a81733d;
  Double 0xed89b8d2375f2964bd47fc863ee7e5322c3a9e7eaa7ba7f661b636b21792a9a9434b0930e642f490ecf244c7038dcea5;
  Plus 15 0x3fa8c16b3684dc8cc37fd7d80a105bfc6cfec592cf9f3622ee3d641e98b0497cfd57db7ec1e51545ff62b5b03d0ad7b5;
  Double 0x4db8a01b14440c580dc58a89f2e3273685cd248abc84d06c68388e03fcd3efb72b3228e7bdbb5115eac00125ba2c6b23;
  Double 0x484093d98b93afbc50b3229ef6b30cf52e83f307169581b82e906a8f569cdb6f6b33f052e3603a045748ece9cf5ab563;
  Double 0x502aaec82e17a833c8898b1d2fbb5e9536d90d8fb53a63608fe45621563ba916904888c3b6018b6bb84d540266e6b226;
  Double 0x7a68b50e6d0a004e5afc92389137b7458897381ee831ad9581a31e69923b8b0ad66e384723f73114465225865dd4a55;
  Double 0x166ab2bfc6d0e6314d251f4df3d53a96708afa8ed6d96adfa1569b4d813cf5e3a9f6def846b647f7beac1c9725769a5;
  Plus 15 0x864b98678ebd70354e5925c16a246c498bd61051397c1530de19a138d03afb31c3c6da67d5df3e79f00ab231287a401f;
  Double 0x7a361817765cdcd59f62d96a5948e742a3b4d48b50e3e296ad8f630e710687f59043e7f56f3107657fcb40a3197a2efa;
  Double 0x4ff20ebb6f043305e8279bf351e5fac2ae6a1c706a9963d71c251a532e8edee411252d0e42c87f091d68ae988b7f8359;
  Double 0x9701f571bf39b1b24ab1d4793828b0ccb9c5805cda0422f5b25ba556a084f6913742ec20a2c159fd0ef6ea712a9ca955;
  Double 0xdd8c07f677fb42c46caeea59c62d1a0310016fb144f7ebeda534f9d7c92daa0835bd65a61b5656b567437bfc0ae810eb;
  Double 0x43548dc1d623edd271ef627503297e46550335b353c92d63da591e89928d58f30e896f75000914970516c6b7b9fe3d3b;
  Plus 15 0xed57cddb2bd9d149321d7f3080e9f7fb781db59697334425ac6aefaf5dd09448e9b59311e1351a89371c2bece66f886f;
  Double 0xe5866b81aa735d5b1a3b2537e379dadcdb4d61e9ecec43e6ee10fa453a717098bf742e892eaa76b0bce64f2a4e13a8a3;
  Double 0x35bb61230784467cf2d80452a2817e89f0683066adc278005379239e1e0dd7536c7d1903b6b90a5ab9d861a3f8052007;
  Double 0x5a0c3cfc337732933c521f9d9cb975feac57f4f7c7625637088e792a8af86a537038741fc13362160777ee47d98a1fc;
  Double 0x17dda958ffba5c027b585951ac54375909330d43639c0cb75f309ac9da8fcdbe15b6f65304d437936394f76e44398753;
  Plus 7 0x154d3f822d08d2f84572927e12cb7b6ad8ee80cef7bcc78f0bf3879eef6dc45f4dec9bb6ab2e49ea8f88882650459d3c;
  Double 0x874d33582167a5f8c6cd49e5bc9257856e2ffbe4a92f5e1c1e861ed0f6c3e2f796c5d406232c727c23f9be72902cde4b;
  Double 0x649f76ec4e34eab54a89d104e979d2240ac72d757780043decf721c9c44aa389579862da8fe6debf763d6326271885c4;
  Double 0x846f6531b94ff6d067b7d1f210c5e196aed036423b363bc9c9de5f736ec37287a40a7bcff3165fa3cfc9945f220296de;
  Double 0x6a4f9c529f67a1257da41f045b9a336245dd9ae123a464d6dee4fe544a6686c5937c98fefbc708b12cfb30afb9026e5d;
  Double 0xb2b363ef755730497577f0c30dc9604b3c17df6012bd85c25b9bbc17bbd827d9791b5215cb4fddbfcd7bbbd780862327;
  Double 0x9f34dfa382a1601cf6675c78e672bcc8a8e5b558f7e7ff6147b95fbaa1aef0aff9f7ff9c536c32b5321daf654c9311aa;
  Double 0x4abc87dff4a09852ef5b486a054555056518745b8aad0d63a826635e92b0bfff142bba9f25bebda1be80bb14cdf76f3;
  Double 0xf63c0402fd12888602cf474720d4c586b93aafa9f33cf579a643c55b54fd5b36ac292bc8beb7b530a29e73cbb8ce8f3f;
  Plus 14 0x1a536866c902153205837aeed86f385c3ed901c496f6f9df193304c74209eb417b93148d3db3a8844e988d467f86ffc;
  Double 0xe7b904ee2b398b3bf8bb059476c99f02c1f748e3e0289a8872fa40896adb6cf6b5fabb99388038b87198139593c1e502;
  Double 0xd1f2bb83236fd175caa0d5977ec91a6fa8ecb791d0797f46e57417044bb7e929b3fa5089ac6ff12b9d3ba7a7ec48e932;
  Double 0xc9a2eb62394f540690fb12fc806652a1627684e2adc3da1bb975dc06d4f526fbb72a258e95b6c212b78643d75925ff48;
  Double 0x2a2e1c366bb9da95df7896cd03f50a4aa8d48fafb036cb501c3c3a8058bdb69826c1f4fa431682903176341cf8213974;
  Double 0xe52b02d918dc2ab0ac272941ce38f303d8086451d28e1ed2c3af9e1d5bf648cc0bcbfc0eae15a2a7be9ab4f8ae39a07a;
  Plus 8 0x4b68aa82af7434aa4c639ed66c63a53d79525fe5f70a14ca323db9bbf1d783ce3101aa1eeec30bd44cbabc51f11f57c6;
  Double 0x8c94a3744d634b4f160305bdb7d608d25e688a4eae5d185080ee58366bbd002860756323b5f461be4039d589611954fd;
  Double 0x369459c4678984eae28a905206dba4f6397f3e76d5cb4a254fe8510b98d4192f247750a25eb1d36475d8308f3a8033ca;
  Double 0x1da5f32eec6cd3ad966d898941471f142ab36eeb53832f90948d074dfba622a122809198bbaf224caaa60a68bf95c4d2;
  Plus 2 0x58bf4f1f7dec2c2003859b2daca05e55c8e8f19a4d6ba164bf38faf3d36b34ed86c63b3f5949839b309289352921e06c;
  Double 0xc6cac0bc1068feade0cf994c1a1198b86ceff43de4973d2cc7105588fd252f3164f8c51de4103c0fe404723a820b5e57;
  Double 0x463638aaeb004279b90e75c7689dd11807d92c568c835e7a6ce4bf260400b6e34137557f1a99f6086bc92af3df722294;
  Double 0x3b3091b0cff59be47893a3bcd603b670223811433a64c50cc10f24c52c82685f95e6867008dd7f82244dc4e4c591395b;
  Double 0xf27c293e0710a2afbf7bf7170b993cf983c1ca4c980278176506621a3a9baeec3186ef3e2e87d14ce35f7f3d5d8ffb79;
  Double 0xcebad1220a83ac90040c0a354eaee46fe43da401bdfa08920ea7e5f6cb6b7541f2e0250071a8f3f582c30b5d1a5f584c;
  Double 0x78668a03bcb38f43d50f62e228b979b18c0d4dacd7f9b1b486c966ac1e4f766535280bf69bdc1e48213e99bf83a67068;
  Double 0x6dadfa354d24dc90d42a7cc44b680488ae023cfc89d99bc57239f1e8b2b3350e2e56ab04db39d404f905bd81e181cdba;
  Plus 13 0xd3965321800f2ee0b2429e11aea52f9facac022403676b46494c0f95787325495ce8befcc3688af2ef96ec2a10f7691b;
  Double 0x1cb601269df77de4f2833025966f609db347f6e267d3c2a48eb53c8ebe6d7abf48d6849512f962da0d964557a8b44468;
  Double 0xa46d84c2728e77b5114d32105eb1ef4016eb9af528218e54d9d352a3cc585de1e4c1aa1fa7df3fd375f0fdb3bb773478;
  Double 0x55f0928c2d48dd697a0c3f3b0085b454fd4f6fd8a9c5519f7445c9bee3a224e1c666b3fd1b8530a52d6c337ad90ef0e9;
  Double 0x515ecc6313cef39e2d6e071c46bf62f59decbd070963add7feae95e8ed2322273c1ca773c9154ac92f73b3de54f13339;
  Double 0xda73357f6e8a8f9ed9c1f9ab4d3f33aad404356996e6d0e62ef9439ab323d30e173ed8d819ba0dbe96d36afc599cb4cc;
  Double 0xe72237c7c234b7b04ad1954e50ae461e9bee4c43f62c2da6f0d988b6c15b91647ecc13604395e13120a499189f56ad66;
  Double 0x46be1a917807432239fa7a57178a1c524fb60c07688a7c2ea6380b29b0e84a3149dee6b5a38889bad575ba59cad314d3;
  Double 0x3811725040552569d97e56af8b6e5081cbfbafb8c53fbe8556b1f83a505b63d13c280153f88f1b6e1b7840d7e095768e;
  Double 0xa2143fcb33efb0363e36fb0f0e152ddf8d77a83db7094b8d37410cf76716b0fb4cd97781351736efb829d5ff82d5914e;
  Double 0x299ae3dfad96e267fc66963e7f625d682c9cfdb65bf462ba084eb03e27edd5ab2ddd77fd0a51bc651fb00ff4d133bf36;
  Double 0x6d44cd54d55f702d76cb20af2aa47b8795fec87b419d1b9b6f26dfa44cd2a3455fe6850addcae63cb6371e2ea77aaba;
  Plus 15 0x6899cb4e0e56049abedb7e7914e8f60d6546f78f2c281b0a88a0674e3d7a0b3dfd7e11625d3e3c119efb422a9c81121d;
  Double 0xb46b214857115a827596223ee195515ff08284be4500941a81a8d4ec38ae44f5d489fe152553e075cdbe526cfd40facb;
  Double 0xfb811663bfd4ef7de5c01986e80f39f21bf0efeff1374517dda8479cf274f31c3682f9a4761b42e718b2f76fa7742f3;
  Plus 0 0x54fb7fac7515dbd602c8fd4468aab5dc438b469f8caeeb910ca50aa73c948e9ab3f56a536e03254e26452bc15b3a4f94;
  Double 0x309d7261b6564a518393d8339bb4509f3e907a77b58af8c4e26328e2bca0346ca0ad2aa8a4986f19703084deb6fce23;
  Double 0x9a52975d1f904297fc4db752a999cc2e16d88cb9049716dcca73048247aca1bb2b0bb69371b25f6b3d509d97f68f3d8f;
  Double 0xa50af6c3aecc1ce7e3ac512637dd9abd1e09ceab6823ae0ff1d680cfa5d48ec135c5ba17d0d7f7618c93ba1d6b4d77ea;
  Double 0x334091cad82fd9ff2acd537c716a745c1bdda7091a5ba52f71d49871447589a93e99671ca0bbf16f2e5fb96a5cb3325f;
  Double 0xf9085a83f8551e11379a8c4a49cc9b1e7341911c69477d012dcd9841822db1928f9bd2df137e9db1ac628d292b3153f6;
  Double 0x187cd2a9ee29817b71501e6e74f22287a1e66e85d731d1f3dc3f7ccd1d966ccea472d7aac25f50040405f61c776af626;
  Double 0xec3a74ce0864bf3d19cc8233b4e14f8ad721016bd03d0d5afb9a17e37702d979c8b6da848e7c81f4d701f3aaae52efc1;
  Double 0x78ad85609b2a4e71b37eb20e7052061ff52234f9564339a548090593026f8706cbbdbeb83c37adb637567b30a7d92cb4;
  Double 0x8a1f42c34968d3cb2a9fb9aef16a5653a36f7e61e64ade4991df1c85fb571ed7f0879146bc6243bc36dd645e93f836aa;
  Plus 13 0x3cb6d5829a80012647eba1934b06299ef8976949450b1a39dd2cbea7691537c1726dbf9c984613b608f848ed262d5d4e;
  Double 0xef32e0962725d1fa1177db45b24a129c314632ae22483e09acc64b7ed094fddca44c83baf89d4c85fa2da17e26f934e6;
  Double 0xec10a81f761152c5155aa79b312397a954c917a364f0577b6e2a9ae0d24f8e37b2842b1cf23c4d396b394ed8ea983ef6;
  Double 0x63066020324f5c15ba026d04d66137885e5a6846f56e1f49103465e507376a7a6581fffde88364df9ed24655dedd9cc2;
  Double 0xd9d13b9ff79522f9b73464a1a7f3df9419590f8fd48e1ae91f321e1f06a1217a4b35969341be5b86ade78c2920b7c667;
  Plus 4 0x7a8e71a923df1f07920256f5630185183a86b9d3d1ce7bc6bd1e4941fa112562e3e67e41bbd7aee9db3c943b2fd80f0e;
  Double 0xb2b4b657dd60087d9e3ef96667a4ed7dd2fe573aad1d18c937e4ca362f1ebb57a343eafdaaa4087c4f6d498b2a95ab06;
  Double 0xfaa9f79874df8742069758c86fd7a27da3c7b97311ffbeaff57f273b9404a07f8ce65c8c224873256a8564fefbcf0084;
  Double 0xaa962a87b424e4ff5e5f0f236453671e7ace17e806e351f3e493895a6635286329af368cc21307d8affdca085fc5821f;
  Double 0x2149bb6a92912ed410b749eed4be6179a85518b25f426605300141f0103a71a47868e265d48a3ecc09045b9007d52b66;
  Double 0xe5f137e59382db6f95dc71f1e77fb0870556c51bf726102da1826744517c8b2ec6e186fa52588f5df3f7c8fcb7b64b34;
  Double 0x351bfd85465fae8554f48bf77de0756cdbe355f4d7a2d4fc08c2b4135c545b3e27b921a8c65a218fc95939316b14720;
  Plus 13 0x860d1a58a845ade7b8e3c3aa3f8a816c28cfa0d415eb4309b71c10f2340e2c250068cc5c6136ab38318c6e02c5c29ec7;
  Double 0x30514f0f09b58f5ef77538c0d5bcc8dc8716b7a0a640fbe493357918fbf60da278c36e27e27736afee3b20b8899ef0b9;
  Double 0x6c89cb2508fb55b7d61a1b6485c05bb010fdc342197fbaf0dfdae7a8d1c02b11610e8b398f6a2f086bbcf4ef271cde21;
  Double 0x86a1884bb4a195b59d16ab0b63d3c76b4487af3fc337c87c6ce6984731d5300e17afbc833fbe95df8e691c3315f80b4f;
  Double 0xfa61f1c4792f54e1bf304c08ea246eb263972c1288a7a294ee2cd682aa604435599efc2441a7c4917e67e420afed122;
  Double 0xc9088247438bbac78230f2c45b9cf50e069d28327463977919cf099d8bdc4646f986a7252706e8336984356bea66222b;
  Plus 11 0xf2854a2615d1c55072464aa3080d2c3dfbc984d00cb2353a45ebf9d82fe4da224b908dd122627e2421ae69b2ce72dce5;
  Double 0xdb10719442180abb24d8d1865e4d2dd88c2ba6d37887a42d75df7f932d3e2a4cc33234b1a2bfe0cf60988e2ad1a60bf8;
  Double 0x2a1087efce5e2c8c175f16f24d819845b439849cd4dfd669efc41e3de24d02203824629d807b475205945df18a89d79c;
  Double 0x393f01ef3439b6806a4e02d42b7243c3e8a6f207ee1cb2e19db847cef9363dec29f9655d138c888c03850cfee75d6d82;
  Double 0x36f405fe6d23abd1fdfa886b7d2127f42868975f334bf9a063dd7f1579449e863f90a7d7494e4b3b5af96c7592d8ea68;
  Plus 6 0xe1a9f634500f4c7c925e8bbf2c0ded8e6b500754bed2d5602c3a443bd7f50605da875090db7ef1924af0be21523e60b7;
  Double 0x8a11b81098298e8fb84357daa21e1e5369c9383daee96ddf8d98c6345663cb30c69cdda68234ed879f3bff0591e05bd0;
  Double 0x2500e39596f99310805c5e6127ca9b1e4247d34ce3805b7ee42d47f05f8e5e6a95578e3583fb919050ac7daea490c513;
  Double 0x809b2dce5de9459ad60ce9f79e6c84ce460e6fcf8b7f8fc68800ea4568169d467f8ad57325af84245fd61ae41ff65c80;
  Plus 1 0xe0c4dd271da2dccc258e4dd7ae5e0c83312f25215583e4ba1afc4212df0d8464a6dc7853667f4e617687ccc8cbabd1b;
  Double 0x47531952325ff0ebd1acc98a61b5e23e2cf9f4742853c0aa177916f6265bc42a784de7723842bebd6da849cc3bec24b0;
  Double 0x49a27014ac9ee757315e5e8d4a4a78b48cc12f75eb6d27606fcf0acd44189c311e971881f42d605f25624276f23495ea;
  Double 0xd49ebdf387149abbcfc50e88cbee4681cdf742254a64409a2e9f56713423d11c8a734aa20cfe7a81f334cf51749aac73;
  Double 0x82d0a60b8a093641f7bd6e9d94319c1d00d5b631cf2c0d0b1ad43fa4d756eb4c228e53cf838ea2fef81243c359c7d23c;
  Double 0xcfeba06430b2a2d33f1dca841fc9a04fa14f26da9cbb6bef04b7b72d3d786797db2a38c90bbf641e89734285b291327f;
  Double 0x8e5236bc4e0d639c3c10d3157e801465df0f29211e89669063637040d2350eff7b433d3ad062e1685ee11c65a61353ad;
  Double 0x7c1e8b4c99f6d42c7238ca00002f795132d343fae9fc033c65b7c63be43b9e87579edd82bc6f47bac9418ce87ccf214c;
  Double 0x386e7184fcf06f9aeaa5cf31d2eb29e4982eaa7fd809a2fcf4fef677cbdff61d0c0bf8e32179585ff1303336e140bcbc;
  Double 0x2f078e7a6f12a91bb82c32ad49d4b23e8e09fad9f08065ecadf9146ee61e62c5b171c12cb373da34f8eb53210d7c722b;
  Double 0x60c131d4f463d1b7e241d249dc37ce2a5d1cdcd7e0bd735658d6cfc1265d6c3f322f6d1cea5d1e1ce6b6433af692ed83;
  Plus 6 0x7e04589f6ca713a70ab3c82b1159c87765d34e92bacf54db3f818102c42c7cdc2a11397159cd02810e791e0fa9d3aabb;
  Double 0xc87ab3964d8a3a9871df5026ee58500c2647924a26bca98824b1b1f82456ce7323499742f06b44f00c03e6288edeb67a;
  Double 0x9c7e1f3a4a86d077878765327b0acac503b5d4cbcedcf0651f4445556c4974201be922f3cffbad97818eabe86ad41250;
  Double 0xc198dfdc84d2c774e583603e67d0a0eceb9b5e644f33c6e5e496651786d69ed7d3b0ce3fcda942a724fd49edce32d7d4;
  Double 0x26ac19dd92dd2763eb601ec237b1e76f0238398e2b9d33e8c373d6979d0b7015e9f98889e34ea45651f89b5d9104bf9e;
  Double 0x2712cbcbb3ebf33b02d5e0124a3a582081344e84313ee8f3155409e8bd71d8a4dd1f178b643a554cf93f6be1861cdb42;
  Double 0x3d6945d33a21c0a353388d8a191733bfa85faa52a00f13087dc81be14bc0584961ac9a6ca5ade192b1efcb902b1937b6;
  Double 0xc956be23fae3364fe9c2567934e8105138501efc15fd7bc665f5fa7797c6f95d1f0d02361a50d5d9c4599b9f035f8f5f;
  Double 0x2bdc669fe7e87d2fa27c344dafe8b0590f4433f73f7db33b384bcb3d2c2370f6c143d9748354a53012bd790acb4aadef;
  Double 0xc0b819ce98b92d46c8997d4578f13fe38f6437f87026236b51d0d63a32e4399c05076bf488ae03cae4ee740a2eb8e7f2;
  Double 0x5ab0ad33d408583dbe8b1c6919ef99c3911d151c0f80864ba14fe98ef7695e8ebab7b4dffef9416aa2b7759f7ba683c0;
  Plus 13 0x5f38af5e1db869b839cac0b6042b7897a3387a2dd1f39e0c8fa5990bb02088e797a77477a9f6c52f24ff4ac2a2b18b9e;
  Double 0xd0ee7ebdaa1b0bf89a41c6dff7760295cb1a9b49020a34ee3f452f5dda421dc75c3ffc4af677f2cde8a17cdb1ad51116;
  Double 0x44ac273a76457f4662a0064d4368912425adc22ee8d043d4d35b8ca9bd6810a0aa8dde5983e5d5f4d01b017f96b403b7;
  Double 0x5de2def30bb4eeff266da64eb9e9dd0478d9f083ab3f7d3851fe47731587e68766f68c155d6e6b3cce82788ae1cd7156;
  Double 0x37f39e83fef2655761efa27bef4f70d699a7522f096764c1bb88daa879eb50f2dcdc5c97700c597ecc7376b6e0876865;
  Double 0x7c8ec9a18f10f85c205a951e640797ca86ed6f02f4c1f09433f2aba97021b7d47a3c11d974c90cf6239b56a8a35e52c0;
  Double 0xb0048afc8f7790924b78f8f8bd8a86919951fd8419cab3ea8e7ad8ac2019a46bc698951c2b0b6e7ca7571c7d29a7c22d;
  Plus 12 0x933730102678f6bba2eeabd420a67fbadff297dcc613f29eded01f6655453cba3cc277f79433382f79a98e3507e8a352;
  Double 0x1dccf7dad174dfb2a30e1fa25e04fb7c9225086ab55f7d89e32d617f3c764fd883e9c99cc8333c4b1324198fb4e2a6ff;
  Double 0x820bc65ca765d58b0be91e6ec8655a66639cf2e955bd4e91d4301d24d0769e7063f868dabfbd14aaf2eed082c831d790;
  Double 0x5c880654bd281214537ada760c199f0f8f43a2448ba450859bc00cbfbbc7c88a687bbb45bb825bf4222306e650374efc;
  Double 0xa0ca2c39b7d20b6d1379b1f64480a8403f8fe2ff11a3023637d4ffb3e75954c1f403518a07d876e971d9b39ff606a75f;
  Double 0x65b8b92cb3ef433bb3288de8fd1848d95483f4e43f6eadc518e39c533a84ee2087db202f8e378c632ec41b4a67a33835;
  Double 0x473272ebe7f34717046193a3031731e434cdcc0d2bb63fa75ef8a03d6e96f6554ffcce229ce3e12c5954ab6e284427ed;
  Plus 4 0x22ff866cb2f310f37e33aea29b4b1adb70aec063acfd75fefc6a91f8ff715d3685b772a13705266a163e189652f6c07c;
  Double 0x1f89c1801cf276b49050ff36d2a1c689eac35f52c9fb4f20d9c7fadd5ae0fe1d6778843013c0c93ddf22ef37d50f73ed;
  Double 0xda2ebf52f0fd1e85dbe651adf6dcd6355819fbbf851a4d0ae69afca8071a874e55a4340d1bb7787ac183dd4ee957681d;
  Double 0x82244f31fc8078b0f35519410d0cf4496187377ca0a06840dd8db96f9c4787f1dc7ea34dc4f296b9b673466678f4e8e9;
  Double 0xcd9bfe075ad1093cb6e6edc2f1b3ab218ec30951a88e5a5972ce7f18c5ec485e3ecda5c1cb1549517b1fd73fe1b9d3a6;
  Double 0xc08134f2e9f0198f14ee9f07d2f6c0895e58d3cb368bd4025ab7711c58c2d09df0e90fa15d0165c4fe3f2e36f736d8b4;
  Double 0x2f6037de8f66406eb2dc74ed333dab770499aa64eae6677a2bfcb945fedc165a1612725e8378361f5951cfd3e7b36d62;
  Double 0x9cafdd3f58fcb1ef4fe1faf6c43db12106311bc1a69a0f23b28d778ad4faa12193a770cd7df0ab07ab30cfe7f8763068;
  Plus 5 0x5dc0d2a59ad51de1158da104b61ee76d81228f763189a954b55882fd70a3a8f261e4a3b8bed5b2314b197ab9f58d7970;
  Double 0x2f5b9d8e1cbcbfd13bb7e56351e562aaa9e0928bace6545b62c3e2a348689302b304acc3a546f065de7ec70c9c3b1e01;
  Double 0x9b906d0db72180710f7288ab7f1055d60235258cb3f8149370a718017c5426659181f9b8ae5da677fe58de53db800e2c;
  Double 0xbf9b8a2625ef793c2e6b27cfba334bcee0492cb12090699b3ee752ff12b7990c6c55d7eec574bf39200fbf20705bb37c;
  Double 0xe557cfbe0319db5a6ffca4f9e3ab9fe512b6ee8815de0c23440639133e33951be9edaed06ab97e5a3707d9404e34baa2;
  Double 0x174c44bb2780bcaa9f94e434d045b16b149bf1f0763282e2cfda187f8b5d7d73a62f1ac12346f8f86f3ec9f044d36e9c;
  Double 0x575ae2287bd51ee33a2118171c7dea7e0059b82ee92ac8bc2cdb3cd9d04f80aaa7b85cc9053ba4117849869c44ee974a;
  Double 0x259ea8cd66c2792caf8823a0e2a0e8858ea1d8bc7efdb838856eef61acbd9aca51e98f76b906ec4a3a946c63e010791e;
  Plus 2 0xd023b62835ae91b3e726949c5d97b7699032c2065e2cad0490188155dda747dfacd40502de2e569a52c59e28bd314c91;
  Double 0x1d0b2db26c60f2cad709762dcda3fbf252a66f0dadb8eec2ded39abb8b03eacffb768ed58006e4d265f55aa629fa3d3b;
  Double 0x8e9cc3f97c4acb9de1ab33a0f2e64934f2d36f8f5acae335377e6f9c1aae8514ea4bfb35a7e547f130a19ed33f98bfc9;
  Double 0xca3827596b6b7450ec9ff6c0a60f467419668c3cfacd21558b049701bc3c0bf2c81b42dea454fb1cb75741fc8076bfa3;
  Double 0xd1160aa4d017e5802f54d5b678a027e4b532a8ec3276a1c73f443a9f58af0c99ad78a776a657fca84cffa359750ca084;
  Double 0xfc9b8f895c5c30f6cc5705dc14c64008cbcf1db4e14d774f712709825a636c342067ae49ae7a375ef80a22ed0aa9a167;
  Double 0x563460284c0862bff66f77678956b68b3001a63107092b2889740c3e53cd2c5062c3de6650ff131ccd2bb7060e8cf295;
  Double 0x6dabc09b31be66651acfec2ce7f6edee00726d264f16c17f973e15ec884d61d63874c362baf82443aa089f031ddac93b;
  Plus 14 0x1f330ef261c0da3b74c262a8143f1e715f2ba1fe13ce11ef6096fbb74310e908cde928fb6f3544626a0c010746cfe1b5;
  Double 0x6c6b21e27998c4d71192d3f0836a5cc53928cadb5202cd903ae32bab13f3916b33320fcd462e213e4f31c1bd00dabe91;
  Double 0x4345275a068a2ca5d95168ae3f86a72fbf6438481de9653bd22503f434f4cf5f0bf9defd77b95ee5acb906b1f53d7938;
  Double 0x976eb597bd6d7ea86f35b5729c7dc96fc2f9718cbfa47dc27700bbd3e2b34358d182b9d52fb2312208e59064d0f19e24;
  Double 0xcce7e4589a7a7f04d3bec6839fec20a9445e22dc75a3345bb3f0d9dfc87d7bc315f08d54040dd2fc8827d8ac0ee7f76f;
  Double 0xfdd9f652ddb6054b83d88e830e2119a3e064055fa21cca510e93beab480d62e578f1f4a4712b6167967b31861386267b;
  Plus 14 0xec4fdfb1db06e0469e86ef335495d19bc7fb2e7a11a52335c8e3c4ab77ab2d60b6592499ca5969c152c4e096313e06ab;
  Double 0xaa80c082d3260b15f0711349112f68f9469fab68b206100f2a54cfb98c0a90bc8d373fd97a72a768c180fb14b7ec3a92;
  Double 0x72bfc721379a5f2e6d7d92befaf6321e9064323e504f306ca2f637380bbd402bd10c113699cce6414461796fb6725a04;
  Double 0x3a86883c999b74202b300653b40a1b165687d274a98881fefee394d4c8f95bb6b0a85fc81729715a95c68798cca8477e;
  Double 0x4fd0c428f95a2beac03354a7c87ecc2aa673da9f22abd3fbe98bee63be66af9d11293acbe8a93bd4123c801b92168586;
  Double 0xacf9aaa9f96bef99050ddb91c590c3ccb392b102a41f65780503a10c64b9a6bc597e246e7a66d7fee32990e9a0572c0e;
  Double 0x6963c9666b134ba440f455532a135b24f079ac17015a1756b36b6181fa22ffdb5649f4ad49a23b41b9b5cb4b249165f1;
  Plus 14 0x346a20ddbe408e7cab17c8bc928ec1337f4402df15a30a25a15066f18e579e45b33d4dc05a3a940c9dbb371981219008;
  Double 0xa5bdd880f0db66028a26e9c9f8afc2027d8542da5798989c3cd753282e6703059bacc8cfb3c347c9f7d105cc7fb1e52f;
  Double 0x37e63e705c3e3551a567f4cc16d4373f9c78b0f17685f19e36d5333c32bf0baf0adb81bb9868a95dd5e8cbd546c2f7c5;
  Double 0x881e9c46182dd4ac11a6f9510520c27dc2e24d9a6bb1f8d20903c279f8467102d1d274eb4f255fe8c1910dfbcbbed736;
  Double 0x5fd0521738a16105bc1105c6339b2b10d6ec422450d8681fb319251658fdac3f2b52da4b3fea9b97191a076bb65bf305;
  Double 0x678bd790118529906efc0fc5fae44ff22f4909c54b1ba9ce16e6fdd1b068d74f96f0679b3e240b201e612a84c2c78eb3;
  Plus 9 0xfcabe21ff0883a2e32d4265bcabba951de3e4297cffd86646bbf365f471a95d828acf8802990b863a800a62eeeded082;
  Double 0x62e02a070161c8d424c7cffa9bf3ecdd2a7b129f8965cca03ff8c2769803068e01a2bbb73ba5ec99a36466cc41ee34f5;
  Double 0x29049af8f8eeb08e6a53276eadfb3864ae72bc9cd897c18bd429983ab6057f1cd9f019730b98153c18318c715c765879;
  Double 0x90c0d8ce42909b6b616e72777ec815e346128312e2be7ed9d906b2562e820dd253f382d0a70116f7ba9b6e0f54f00d1e;
  Double 0x14700d55e803bd3c3e9415c2d7ebdfb3101d8462ffb28a9249fa106e3c9077f3253d93060d2ca6a8e53039a5e8d4f37f;
  Plus 5 0xf11d3f577b374743f8c76adef1ecba901cbf26e8cd723334f74a99d0781c516df736de672a81258b71be3806c6ba14d1;
  Double 0x65d606337259de7a07d0dc6fb6b0da14a82c6e5c7f90ff62cd2215146001dc997ed368a91d18e4f08c7c8d3b88988d5b;
  Double 0x752a555f2487547d38cb3830e4031df8c597bc068f961c899ce9d9d690394faa7f82784120e2a12bbd253272232aa834;
  Double 0x372ec0ab1d4e1971c5caa21c8f5b7ad5ae348aa5f3f4ac8805e3717fbe52eb0e8570926e9cbf8f89020f07ca71ca20af;
  Double 0x5b5d8856b2f0517f9efc4c2b3a8d7a34f208ed1012b8b6a2d6331c9b49286c041f00e9558342d44691d961da66953956;
  Double 0xbe6accd2e978e9b3199becb65061ccf59acd11dbf6f670418942bfe063f9f0878780a22e46a73b9871322a9c98797710;
  Double 0x87a7379b1c6c98f3944d99db389366538a0656fc9e1b40dfc5cc3d8eeea5809607c9a7305ca4b2b4b77522a9027d5362;
  Double 0xe0ab67ed726b488fb6b0a5e547e74d9bd36c51638d423bcf3661fd9b61dffb17dbb2b2b568b702289c8878ce2a28e2cb;
  Double 0x1af18d285b3420b8905ea19a67954f62d7cca03460a23d91bb0109a07b8a02ad07c5bf24c16459cb0828e84bf154d0b4;
  Double 0xea6cb4abb4e300f3d6899bc42cb0efe45d0bfb1ef72d511dfb63438aa4446e23867d7814099745e1a92ba01b8dc8a6e4;
  Double 0x9f78625bed037a588003553bf7ca0488d17aaa93851b9fd0918204cb0bf457b1054ab710c4dc1011202433d2ae527822;
  Plus 12 0x1dab8b725f58cdc2687d23940990e6247eacde8011876852c83671377d661446a23297fd6c3ca6e32b075d0792a202f0;
  Double 0x9ad0d478c0aa71b4bdf5bafe6e80c36ffd1eaf65359308a903cf13d7a754e1542ef0adee8057bf074c69f177b3b2b9f2;
  Double 0x3b54da6cd0ce75704e5179a34fb5324d9bb49332baca7d966ee1a9e80a3d3ae1222269f8f0712ca487a98c06fa1d774f;
  Double 0x5e93b066d65885b8bd386dc67e796f1ea7a34682995a40e5b5be12e402720cd8e85054e3c6e3d78148145775210574d3;
  Double 0xa235fcccc7bf46e0c7adeb4f2ac5cae84f7a5ad4382245ee76f8e8af2d64fa46424b58d132ea320eded369c70a0bcd12;
  Double 0x329a998001a6082114fea4670e227c668ef3d5fb11af9c9f66ac3122e9077b5eb9034e45f88de0061079b71c4c5ba949;
  Plus 6 0x28e1c8e47e1e5fb03f3199170246ce606d273043172450c25547ed17429f948661c06d242ec78b2cd0c6cdff8f96200d;
  Double 0x8b0f3b11ee01eba3b62941e61958aea9ae88da5166090598ee65b4205a087e236eba6aba975ec38edb310e29fc1e6cc5;
  Double 0x519cdea91e54a3d31b8f643c4e7a4119a5b87f4e6e655c43cf6ca43fc59cdafa68635747d7508740567c3f9a7425d5a6;
  Double 0x2103faca69ffbbac38655fe95fa65556bb77fc4f5e0e9d26228ae07789cdc4eb8e725da1d925f14f74be9cd36ce9f42a;
  Double 0x8080bac965e2f16878e2c5f73c517e7a735cc62ff4a02072008c120e72445fb343e63b933038582ee21a129706a2eae2;
  Double 0x8d2302b5939b42ea0b377086745224b37d83be6f1a225c09e5a9832f2de840a8ffc00b7587ff39266006afad267364c4;
  Plus 5 0x31077956af1beff0def7208a7285b3c3da7585be8458f230ea275f22331f289327caf22639d64562d6ba940a045bee4b;
  Double 0xef4101beec0c0dfbb38b308a6b88c10be39d13fd51945f305bb8e6de202f0d8a08b3c0648843b742d58eb2e2c7191e37;
  Double 0x17aefe282d3251726e50d75fde598bf0f15cc1418ceb7c580b937651cdf8d0981feafdeae0bf0921d6652e7622b81684;
  Double 0x1b8402495bd21f09738749d9fe821c9383af48eeda8512cbd5e493c0b01b035172b63324aea1c69dc383266268c3e463;
  Double 0xbfb86d584cbd23a14f64dc3228e5e2d4ef007d113cf0b100a39eb14a60e583c20b1ba29d647c59f53ef938080a177f4d;
  Double 0x6536c1bf91d6f91414f75b0a5c287f68fc4d5d2bec4668edb1685ebbc75d02d9a5f827a063db46636fc72dc5c4bcbd1f;
  Double 0x8c5b038f020fb1fe6f406bfecdfe9595099da7acd115cc26d0b1685f626f5e040d59ed8d49a8651ceb3eff1eecacc724;
  Double 0x746138ff72720db89fb040788770adda034d9f87b76a526ba1b4e1640e70ba755719c03e4d8c0426eb12315fb78966a1;
  Plus 12 0x29714adac18f2938ca31cfa745d5eb3826417ef23331e63ede148790d782083cd48ca3fca877bc6e8fc563dd1dcb32ed;
  Double 0x5e063e605e7c5380dfe21015f0e716aa131d16b42b00ba40205190ade6bca5a45ee42db85d2a188c09882e8ce78974c9;
  Double 0x1e89be704ca29206b78805612e9b8e3af4d93d36c63bfa28c2923f95a9febec203b6d00001c90a6a143134da9afc833d;
  Double 0xfedc12ae2279e1b34eb22fda5d7cf079c72ec292bf656305790361b88fdd175a59ee3f6c13a9c7592ce5e8bb7df215cb;
  Double 0x580490fcd97e2e65e5380dabc036a526b93a9428f4ab9187c9af044efe57982b55cc974b0f193bfe9587d6e2b802f0f6;
  Double 0x156162470f9a0641f64a97c21559c6f94c91040337368a912528363eb85caaca148d0737d081970a2d521c4f85d0ea93;
  Plus 8 0x9c82ba0e57ed8f980f763bd4a2c3d423eba101643efdd165a0dff20451fc187dab9f7f5264a83d0055f49eba7c7a70ae;
  Double 0x266fef44c53aed068545cd17ffa6b9fae9505901a1357b1bb47457b22c68e79fb422f70fe541e6002c54b27b172b2b39;
  Double 0x28aef0cd560ffce8181136eaab3627da55ead8041c1ec91f6803157a028a10c8730619bf94a06a9e2fb1257fc9417734;
  Double 0x5f726f629d5e4b2fc6e6bc0583e6ae8736f61adab79455706b0c21e2a484d2c2ba7a0fe05fb304618782422813ded293;
  Double 0x4b14923505b35467130689aa5315c73a300fced6e3fab20964a283b6f2fa3ea20bdd8619e14af2189d9e88e215daaa10;
  Double 0x1b010270f947578731f1a96041bab78ac6b6aecd9eea8d9f4e4a5ddd2de394058fe8a66daff9df3e713312628b9b7d9c;
  Plus 4 0xc0fb5850491eacafb4368b8f0b40e1d562235341891e478ce0093e1bbf01c83abe5ab65e2249e01951920ed1f881a4df;
  Double 0x4ebcac5bfba5f5b90c84befcdb098de58f4dd0a23e3ae81a9095819c1933278e3091e1b6625001b882cbfa3f8c52c55;
  Double 0x8d57f0403fec290bf39d403f15ac0ced6f3ce02f0f40fd30c3440b991324d89f51728340bb2f77c617bccb6e871cb887;
  Double 0x753ea35e96eb1f6fa0504042bdc57408c97eab6a8e221c6394cdf2d490d3323ddeb9e1564c232c18efb8028612d13918;
  Double 0x268a71413e88868cbf1409b167464b09d85d90cf99ab5a08b1458bde4084a21f1eed658955a893fe65d1e5e19bea16ab;
  Double 0xa08eb3165b83735c733385c6206b7fe2dcc394fb0ce5ea2bc50f62e7ced4b9377fbf13f43187d788124fccd05a471749;
  Plus 4 0x590c16f4eb2efa52d4c07b38dbf88b2e1c96a0ce76427abf6f47669d813702b160a4647251dcc353246e4d764fc375fc;
  Double 0xd5867dfec054eaefef3b1c5ff8aba8490ac087825bc3ad1bbfd46237b589433929cd72463fce720bd93c3b196096b79a;
  Double 0xc05a5b5f739e29ea3a335946b43ecbd7fe035f9529ed0c0d51037bc3791374e24d23cb94af45cdff5a6ac717e3bae164;
  Double 0x9f3c2e22a579969208e816399402a9af0d9161d51904b84783b0596c02a1751b4f81b5818e117f5437989f6ea32c062;
  Double 0x289462b4a3fe13cc994ea4ab00c20d165abe78f04bf832b1b108ca73db961f8ef72954b1d30f950d7aa48eb98857515f;
  Plus 3 0x17da3c0354db5be2d89a897b87114f6100dc3334062bce80317e45a2beaf267f0399b783f91e580bf365407d3a9ad93b;
  Double 0x83a291176b21f3889b724deeb8a39e4a41e60154450ade05491457d5d479ebf250d5e215f9ab979c4dc3109c7bd20555;
  Double 0x56dc618e5fd29c0d76a5d72335977c66ed8d5d85fdd4102356ca707f18761d293ae1c46109c30b6d28809a6dd997218c;
  Double 0xc3e0be7907ea7294432d494a1127a8e9cc48c3baa5c87741bc383b528d65a55eb016226dea5f1fdb186f2ec242e7e335;
  Plus 0 0x2a51d5a2b61ec823e3a46251d9076377553f1a0f0b093d09017470683070dd093b77dec2425a47f1a2653072c349d119;
  Double 0x5b83a174c2f0be1a56765c86d5f6e96a0b7b7c183e8710b014adcb686ed9975ca7b0ac94679ee35e033c7868e2801a50].
Lemma chain_p384 : reaches (p P384) (a P384) (gx P384) (gy P384) red_p384
  39402006196394479212279040100143613805079739270465446667946905279627659399113263569398956308152294913554433653942643 two_p384 odd_p384 15 moves_p384 = true.
Proof. vm_compute. reflexivity. Qed.
Lemma order_p384 : multiple P384 (Pos.to_nat 39402006196394479212279040100143613805079739270465446667946905279627659399113263569398956308152294913554433653942643) (G P384) = Infinity.
Proof. exact (reaches_order P384 P384_ok red_p384 red_p384_ok P384_G _ _ _ _ _ chain_p384). Qed.
