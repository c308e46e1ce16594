(** The order of the base point of secp256k1: a chain of additions that ends at its opposite. *)
From Coq Require Import List ZArith Lia.
From Verif.Proofs Require Import FastMul Sec1Chain Sec1Reductions SEC1Proofs.
From Verif.Spec Require Import SEC1.
Import ListNotations.
Open Scope Z_scope.

Definition two_k256 : Z := 0xcb35b28428101a303eb9d1235992ac63f58857c2f631ee6936d3aebbeddcd1b1.
Definition odd_k256 : list Z := [
  0x342119815c0f816f31f431a9fe98a6c76d11425ecaeaecf2d0ef6def197c56b0;
  0xb96755a5aa4a37e34d58d463a547b56fcf0ceee65a20052241a3425b10fdc015;
  0x34b624a49fa5aca121c4301a49339f74e51b7a580650e8e53efcabd644b87c4;
  0xcbe159daf398ee5fb621f8a916221c8ce6bdcd3e2295d44d29ec8a87924b2b63;
  0x53facbed580953c9d1732da8795d9db5ad651182ff845923bf0ed9efaf075c88;
  0x59a555539aa1e85f024b89e7b3299adc3dc9d56459d9c4f71711ed3cf915f3ad;
  0x37757e9ad5f9b72ecc0a64292bb6a15916d5c53cca0adc067d420985fbb3cf81;
  0xae3bc7988d5a889d420fed3b6bb810a1cd6777c1eb5f619028e92d69a9307e09;
  0x8dd4f221d26c6b4a4f37f169d117aae28c0aaf1d4c66d2bca800f4ce055faa42;
  0xd0c7db69163dbfad98f3a2d6cfac6bf9a0ca4ae912a7fed8328dac4e2240af53;
  0x516d2da9f6cb4fac2cd6da72a52f1bc0a939a68ae221fc8e62cdd0baa976fd26;
  0x5fb933c5602b9ccca84afcf86886224fd7c1f791fa7c33f60ddf3ec1aefad023;
  0xb5764352f4276f2d8014b53975d5421a2a179284334d2da10f4d10f53b1a249b;
  0x4d48aa86fc22119d55dd051bd528a3bdd877aa2f5e0ba6eacd08c6105f5244ac;
  0x9070fb5a7d8428a31c3179e8d92b26241135e43850b1957d3a881e8f47a841c1].
Definition moves_k256 : list move := [
  Double 0x5e7003bc5c5e610d341ec2329dc7b1ed2c303306520bbc0fa534e7a7bd8f5dde;
  Double 0xde5b26c3b1e8f43fe437c8a7a1e351d1c0c238fb0bc100e496358b8aac792118;
  Double 0x331719727856aff5773e5d4827312c43914876d43923218542e452694fb838d6;
  Double 0x3c023dd17274566f7f28ecbb333b95edf7c17b41371fcdfaafedb967c01a79f9;
  Double 0x3c53e393c555588a519fc1417f12b41912748c286aff663b07e9b56ab2aa1081;
  Plus 15 0xa8fbddfc98a82a8d1165ebf8fbbf09f189a29f2621f77eb66b21e1061d8b1f6d;
  Double 0x4004a33bac0d8f62d3f6c31239916e63f09ec97157baa54f5debb8cbe42b9e41;
  Double 0xbece9182158dda46b677d6fd6fffa9364a532b1ae00cc4995150f2a70a9080d1;
  Double 0x5126bbb97aa5232f9112b1adaabdcb80d5d56b9e6b51d88c2f4db9711cc3dcf7;
  Double 0xa615fb3a025e0e08f41bb83dacb4c0fe3f61e2c2ea023f6760093e88b44287b;
  Double 0xc030353ea299ffe3cfe29c67729843628a5bcc50d73d29faa4a94c6b0745ef9;
  Plus 15 0x65d974354572d8af39eb01541db5e7d1281d76cd3d5d953a8820fa8c2153bc9a;
  Double 0xd94434077a3c1d4e96c5b3a2e081a85401a2628ae27a984e217363615d60a0fd;
  Double 0xed0b520f6deed61023a780f916b27441b3c53bc317ee6038505d8e0d1593b71e;
  Double 0x74593e2c69b7c8ff231ae1a16a8783a6f4f158e4cc5c27702eb00f5559b8d2a9;
  Double 0xcfb69a61f5c718a11cef34ced6f9237d89b7172ebd950739827506533971145d;
  Double 0x36b5d4a0ad9b4b75002c1603232caa2eb8281cf6a3ad0fd3bc02f1b8d2dac97b;
  Plus 15 0x89f4322c0aadc9724e6adbfcab7005c3e90dceb7411a7b57c5fca0518ad6b5d7;
  Double 0x8f7af2ee5d876514f60b94223fa655b2dfcf11f32ec2b63f985b437ba029394e;
  Double 0xa5ebf15c3f336edacfc9f2b1b82a34b67fa7f1d77ed9e749abc9f84a713aa870;
  Double 0x1ea4ff62f7f26f1cf9cc75e3426ac04a1255e6f7dbc6a1240eefae466d607b52;
  Double 0xea2de09b4832432655dc841180970307ac480313678b5bdb177f8d8d2140720c;
  Double 0x94e8fe27be16e8f386de20e020655b85a7c6ae8560d37ace5af0088933218f88;
  Plus 15 0x617669b4df22b17788c508146e32bc8a9092b3edcb71e5bdb3afe35e7fe58744;
  Double 0xa1785ce327b6253c5e3f3d54cfff680aceef47a5cbc144f3baa90f875e336534;
  Double 0x382f1aa4387aaf49fbb6957a7fa25f344b24497f0bbe88394f30036df3e7a90c;
  Double 0xbdbe7dab2da8222282542fbe66c3e85188ad91bd32f47ea85bb00fa0117d3ca5;
  Double 0x641758810606fdc04a4dadc6a3e37217190ec6049df2431c38ab5ffc0f1fa4ed;
  Double 0xde0bef4a3ad44f6b9a14b45598c412a261599df5b1bf2e054fc908d72c4a0dd3;
  Plus 15 0xbf2a442e18a5eae31cf1141dc409bdcec04c1996d0790f15b75b893ed8cea6f0;
  Double 0xf8840516c757d0a6c6f15a190cba025bea247396f2dbc670ddb91854bb82dc9d;
  Double 0x6d48dfbdfac43f5fb057e8479b1bc541cb51b00dd6248e1c1701cd6ec979563f;
  Double 0x52e4cdd39fadf209720da120cb5c9322bd9101bee859b2dfe4febf9dd10bbab5;
  Double 0x2323e645c71894aaa35bd722fc43be373573cd05d70f3e6c2478b1617aeddfce;
  Double 0x8bc89067780f7d8d17ef97ddcdc1780260395514e2d045e1d9719db76d514a1e;
  Plus 15 0x44790da0d7573fe38b05eb27eb776ab573081ce2e496ce520bb7c45d28ba11a6;
  Double 0xb863f4f981f73bb8ce379072cb8929e3d5143b31be0ba2850acd8d2a9428a15b;
  Double 0x4749092bfb11177d545b5939ae009826982dd65db205fb55a56d29510505731e;
  Double 0x504c2d2d01e346d1b7dda32d3590509733c34bc0b6ba5be9a34cb4ab3490dc40;
  Double 0x1eeca32d8cfede8a9005ceb1656772f73a1a5528fed269858d7c4a76f3c36852;
  Double 0x472281210325318e6a40b61d7b53beb719404bd194860ee47a29b23e5ecf2580;
  Plus 15 0xb4a18e1edde2d55dc15f0eb6e8bc4f9db68f8d83b68ba2689f15ad7a5184d539;
  Double 0xb1b927bbe4f17c53994f61929fc540bfdf36fabe2c44a77620ef8cb461a05820;
  Double 0xbb4d239841c0a246e4dc856e39ae1ec06e4d06d65860138c0923d1fe92856afc;
  Double 0xea6a51f7b411d6a372163f210cd42fff3ba8cffec62ab4f28fc754459d32612;
  Double 0x9ab7441994bb228b6a0eacf609d020face46e9fe0f19926ec5e17999a0860744;
  Double 0x9bf6c6b5ca436db72b3b168fd5dad00280089b05a434e42f863933c6f91fbb8;
  Plus 15 0xf2044629b594d4d13fde2ab24e964fe2512b6c4a49a6f350ee3b141287f32860;
  Double 0x94143d460ac5968e69950b84ff0c31708467c65ec9d6603a108e31f07b0aed31;
  Double 0xe017d7a34c2037560967ae6f6c6b1b34c852e53ed334bc9c6681f15ec07b749b;
  Double 0x72d23bd5424e6434deb75b0ae69763310c3faeede3d9cfd55256af10c2caca3b;
  Double 0xa43d110b94959b14f26a2d643aef2f2a63f4799c5c5a7de9dd676da85c96ec7a;
  Double 0x319ffa84ab164c25a3bdb00f5f246d2f5b4d0aac7d9c08356e8bc4bffc0d9b6b;
  Plus 15 0xacf025a674e257209323ed394d0d2b51e16b7c12da43c44b35377218f3f96c82;
  Double 0x9ee7121ce457b0c95449a7c47a91a300d867c95108b19ef361f8ec42ef9937d0;
  Double 0xe1a481d33426a7519235c16073d75411f9f2ca0b9282c76360042c573ed49b06;
  Double 0x6c61a074e51d664c6cb2615081b1faafac3ade21b43d4269ac02d3e526e35ca0;
  Double 0x278bbdfea0ad6917dd1c7265a926f40994ea7dbab74b66f8b9d823a195c498e4;
  Double 0xb4337b1b7609e0a20b9abd27b37e330d3f191f5fb201d5bd578e24694433b18b;
  Plus 15 0x43595d68d7c423cd5eaa705f457445dc11ba6a91b9776f9f7e4713882ca166f5;
  Double 0x844c870fd70e5e0839bbd92f8f66a7397f3b120dea4dd8f31014d4d93974eb7e;
  Double 0xccd28d40e085e63ff5baff7a8e7ce833951f3e2efd91de714f55210c010e5a57;
  Double 0x582cccc1529cae1bc535d0270215f3b44e7f331c8bb37d37a6de3862cf3e241;
  Double 0xd9c91819cae96ba9617ceb4ca773baaa72080d7d9e81544bcdb3495d25af7dfb;
  Double 0x30c95eeb4506f4e3e262617688dca30efe62d477acefe5bb231073b13bcb0e51;
  Plus 15 0x76843984935a16bcc5ccab79df06a1df307faf53abbd6b770433d06f259a0eac;
  Double 0xca717f2ad06050149e714fa98e9cb3534a3e305d7aafcd12779e19f8cebf8a97;
  Double 0x48bea15ace5fdefa0272f0dd212934a5ec0481d81ce053d4fae900976008f795;
  Double 0xc89b071c540f56ac5b43026712f6eab2c0369cd894196e74c712a0e045be186b;
  Double 0xa963efccd02ef86e031ab70ed2cbbd87c42b92ee650af03410ec61f5815be8f5;
  Double 0xef1648ad788080c33ba935bf74e3f7fb016f53d96d85cfd7046e53507cb9bff0;
  Plus 15 0x4e96a1681960a28116797a0178f9dd3339a80dd54771f69b2d214c4556cfe5fd;
  Double 0xb08d3b0ff2a61219c9fe4f6cc8558a0d2b164d481c18314bc8e14d9a8e2f6de;
  Double 0xadf6fcf11a9c0c8b8318f088a45047b65f3bf703acb783221da709e56895073d;
  Double 0x5fe54e1a3f660f964ffadf8019d4e3c4ffeb63c14ac8bdb590c0cdbfb8f6cd7d;
  Double 0x9b768ccf360f7522c70afaa102b2d2c5c5c02edb0d201fff78d5a874d37e08c0;
  Double 0x73850501139638dcc454468235a9f5ca374c83d72f85af5e5e77ce9867fe82f0;
  Plus 15 0xc4e96b5786e708e74f8dfca30c98b07a933152979e505ec348d266dc650b96a7;
  Double 0xb70adb31dd7be77e821726a8c664cffde80c3420546fff30135fd8a43eff556b;
  Double 0xc18665e5f7890773da40b01d274fd920c8f94bf031467c7170871b9030c45223;
  Double 0xc4f2a93e74f3078a2274172fc33c1d873377d3a04648641f16ca49fb0e6c1ff7;
  Double 0xd5a7297bc92478546a0fe368f64074bc83efd0e607b9b00b8f061b25b1cf080;
  Double 0xe39d53c42a73fca4a09e12ca8f66f0c491776adb61354d225ee5750f77675c62;
  Plus 15 0xa9aac1106cbbe15a60af285d8e8ce89fc1146518822b357828579706d6f64aef;
  Double 0x2b0b225eab80369ac2b1af015fb308feeadd38131df1858932b1961560e0a8b;
  Double 0xb8f9fb3fe71d77d6e19bfee11bb8bb905e615853f37eee03d1fbf0726a697603;
  Double 0x6a104501f7c3245e2b04a2d05e712386e673b6613a47d82be21b655331d3a04d;
  Double 0x21ecec7b3ff00c799b4221e962ca94bbdf542fb9c1832bae75a30561dc988d66;
  Double 0x1ddbc5cbd3a4b233185b6e18dd4ca109e0f8553cf09da7f912a492eff76947e9;
  Plus 15 0x15f2f0aaea1721015bdfdfa4d753fd4021617ec14c69122d0e43398b4ff9f7ac;
  Double 0xb67714fcead854f4d4c22727fc0287360fa00c21c22e80006f588dc5dfe27f80;
  Double 0x1520a5a1f87cebd2a881b6a7941a81374b569d8ce29ad7f3d1125db92be66660;
  Double 0xf701ce6dd66ec4bdb7867c074d3d72caa29d20324ea413de5c4a5bbf5b9440f2;
  Double 0xc6526222f7f86ca81ddc6e79f0353e552604072c0a204865567acd9bf72b8faf;
  Double 0x743612d16879058e383794c17cfec2e3b8adeff4672b8c74a2d4ef908fe981c1;
  Plus 15 0x1b6cd5b14eed1864b0a18b58a81e9bd62375d853913d9e923f74e049e617e08e;
  Double 0xe918ab9d2c9cbcdace2f68930376c22eb8ffb01541170de1443a9c0b22ec86f2;
  Double 0xc5a532f3b10666d09170c976383d3523e60f6199ce27a2d4f8247aa6d30e1911;
  Double 0x8d62e8b7fe85dc5820487cc538b30f8a6e0307bf7b24fcef7fcef587bff740a4;
  Double 0x577d7bc103d050a66af1b02898960ba6ee78a6d509f6d12a88b5fa64be2fe3b8;
  Double 0x11a865db5049a54451e6d0295e6120863aa235384008996b04478dcb88e94877;
  Plus 15 0xe17f826eb6184fae8539dd083f46574a99aa2afd7e84752e6117a4614644f4f7;
  Double 0x4dc90360e6a2876083f187f3ffb3feee5c347841fbef83e0cba8bad9f6523d36;
  Double 0xd6c5d6b1fdacd997d6fba9843d96cbff33a1056de29124e787b5eb0a95743700;
  Double 0x2fd62deea2385767dc9b369b2cfe2f536bafc703f73bd8d504cd171e74236d46;
  Double 0x167542239f6b3147a8f33d0fbe64f9641d6d06e6c245863aac5de238bd21f8d;
  Double 0xfb329059b91c93326d653bc4879a9e6c9bf18d9ed6c824902ecf5d6a22613e82;
  Plus 15 0x745bba8b3accc1e4a055e7a4749c7a16473062cd71eaaf9df274cf5f098b3271;
  Double 0xdc6ff8606a89255398986e1545a4edd87789dcdce1039891aba3144eb1638d49;
  Double 0x44aea40210170afb830397c77f9e35119bbe80837e92d9c1e8adf776955b8063;
  Double 0x3690691ad22e35c9628c6d2448a1e69812f789bbdd81a6f9b99caabf578f94dd;
  Double 0x47062a66f9ababdbea5d1cded11817057fecb61ca2e11dc19f23d479a5c6ca08;
  Double 0xf1c438d38ea9d4725955ef06925b34e216d82b67a192b2367290e5669d86fcd7;
  Plus 15 0xbceeacb7698ec86e9d0734618d3b0c41565dfccf6bfdcbf65d8a3f6f055b7a94;
  Double 0x1d6432c2da8f757222036a50616ea28828523cd971cfb5a82f1b2341c6a59423;
  Double 0x51906164691e2bc6bf408463d437c58c3ffbe4db5bed3a3ea879decd4e188e2;
  Double 0x66b979acb0df25ad07dd64828d119f25098aa5c324129b46db1295091ded796e;
  Double 0xdac993fd444b1593ee113d6c8d9b9d79a4e74da2848f915472e090f63e964c6c;
  Double 0xa03dcd612ead7574dcdd69afe0df83b9e338f33adf496eca41175d05d5632ba9;
  Plus 15 0xd397b7ce82f2341c975dc3d8ecdb8110feef04d8213d4e492a0b682fd1eabb35;
  Double 0xdbd551b4f4b064658c6ae01f2bc16c90bd7b4bb15f3911fa975d488a3d23946c;
  Double 0x7e73af77cadcb2c0346900d416f7ceaffc833be57a5b202689270c51deb80cfc;
  Double 0x5b01f65fb54e9472f6a68bbb2cb485a051a6d77ada4cff6d22b4c91cfd9902c7;
  Double 0x2fa620a5cfc05fd4d4f82ae54e15ef15bc357e90da42417addf93aef8d8d587e;
  Double 0xd2a214c1bb5e864eac13c5d7f397d80c13d44552e08eec14cd57e53aec0413ae;
  Plus 15 0x20107c0bcb556e36a4a25aa202a9ca18f03b002132e3741b86504c5e9ba2194f;
  Double 0x47f6f2f5e6c3aa727042bc51c1d8cde6b9da044815ca4441951e73f796463a37;
  Double 0x66048032876389c60e1b54244abbf494fc4a9799291bec6bd199d6591e2cd3c;
  Double 0x939443b0d739b064f0b883896121afcdb862a9aae60ca2c44d87c458d9c9a073;
  Double 0xee6cd8c78e6d37b1acad4a3f54f21fcc778a5406c4c0767e4e7a0027f4687de6;
  Double 0x4ea606cc1e45419fcc803efec0236af33efb69a06db088691ca77b443a056594;
  Plus 15 0x36fd45578bea068cfa1bad5645ebc00e54263c05f37e1b5139f499f6256e0102;
  Double 0x6fb28815a0ecc97bf4a050d191cffbd517fb249ef252208a553ff491df4873ca;
  Double 0x330edd8325e199b764d0af12ed4dfb3f637203b7b52b8f9ffe7a69e544f8c9d2;
  Double 0x59fde690f2d4d390e5271e0baace3a816c3caba9523a54b036eec656442c5e8f;
  Double 0x5930fec33f3ad24c7495d2f241096289728980f794b8180ed79c754ad6813b7d;
  Double 0x8b216b1c6276ea2b17a97d339db2ac3910904dc9470733ce40c72a227275f15d;
  Plus 15 0xa0c1c1f96ee36cc886d0f95c858f89a4a775a288267642ed8fb74cc55d9e4c18;
  Double 0x28cd61f487b08fe5c086fcd582f7ef4d038b3b1eac5dc027ce3ea940a702f395;
  Double 0x6f715aabbd91b62bd727c81134347344168475471add09672c535aa7fc890e0b;
  Double 0x761a22c7e68fa3b582db0846a96523991ca636f0d0aca1d504abf6831f3c53dd;
  Double 0xc1f78c817b972dcb3c45b0e0d99d6518032461fedbc4898f1af20d13815b8052;
  Double 0x4c901861233360970272d294d4c561219d55aea4a03d77f3a5ab6f8b514e7dd8;
  Plus 15 0x8cba4f6612118a11237eb87e2a21c47cb996aaff46edc75cf53df299bea19ff2;
  Double 0xba29075feeb1944a203f9f27aaec6440ce8936542cda770d1ac48849547da262;
  Double 0xdab9fb47fe42b6299f5e3214d4639059fc5f2ad2c1f02db5c310eeda631edc78;
  Double 0x79b599dcc9a98320232c130b14f3ba7738d555f68afd92d26e310ddb013e5683;
  Double 0x71ee9a3547df3c7ed9d14912100b3c7023b72e1073c28f81bf57569bf5127f42;
  Plus 6 0xf30900161da83114f16abbbaae71bf18fe524d2028dbd86039b438b50a3afeb9;
  Double 0x798ae92376ef80df046f55128ac898e9dd2bbcd8795657eb9ce04d680efd3ecc;
  Double 0x49a53a0c31d207a80c2079095835645344f838316e636a8aaeabd43754edf626;
  Double 0xfcf523eafba6c0e153cfe72a06fdbd19bf19468757b5bd3e56c9399940176621;
  Double 0xfa95819dae02a177ca658209abd8fd9bba8ce165abc704e91df6f2e8696a27e4;
  Double 0xc40f4f5462b5b47984a0ee6e4478cd9a07d902730cfed79bc025f0a0725c4775;
  Double 0x56bd5ee989b5f57fab8401351913db6fcb0d2ff948ed50af2c20aa4e5c94d368;
  Plus 14 0xf008ce6235a1a34383b9b5f996a28f8656f1d6ded2f942fac213b74fb1cccf8;
  Double 0x5732107a973bb414651d1438e0bcfc9ef6e5f478c2867afd7e0a7c9288f79536;
  Double 0x1f16a3c84b9282411b8e811a7cce72cfe968d1f1b92d684a8fb7d274a38530d9;
  Double 0x701fcfaa777bc258e3872312c9443fce4ea699a041e99815e72b9be3c169fcfc;
  Double 0x85baae105bb5a2d386eb694d6511e5d53233b2bbdb117d32affbc8c584b4b46f;
  Double 0x5102459e4d32fafd37d9f2d9f8aed811ae4c6b70f928544716db1725d4b9fb06;
  Double 0xa5059598656700f94dd18b371f1d418dc54d3e1b952635f70a5fa5880e6af1a6;
  Plus 10 0x6c3fd6522ba010bb59c58f69fac7680ef7c9221e0ebb81fe5d1bf06656cd0fc1;
  Double 0x50a221b2f178b80926755e83ed8b0e6aa965d6c9c2648bd7652d018a857abffa;
  Double 0x31217022cd4752790338e926beb35bd85528e4b269fa8bd7149476df0f184654;
  Double 0x8a951b46759630b2c2dbd49165642d958d4754fbc2ddf3259571ee36b1f20803;
  Double 0x563be81230dd99de5150cec890dad93e3fb29dfda2438c6aa1b22891dfffe265;
  Double 0x7188d8e576f7a5569602ac2a36efa7ea73c40864f0361280c0c7a070b920d94b;
  Plus 13 0xfcb5178fd63610effa7100a0c83d3698e33430b34b2bc43c2114a4b01a863575;
  Double 0xe7d985dbf677a15ded43ff92e325f7a8728474d593951ab233daba58a0dfa191;
  Double 0xcac8ee56873c714232599d2d5b3ccff13dc0eed19dc6ffe6958599909137da2e;
  Double 0x600fe9728411d47945a43dd7d49705755ea057f24f7e5c0aa9a87632b2106639;
  Double 0x8a6fd5a6c5b50b3fe19b5555e57b1225fa6d226cfd2de5e75e53f517481734d3;
  Plus 3 0x1ab778c6736237e5692f614bdd821b0854e031f223e79fb38fa7420c541e119b;
  Double 0x88246dec0a2f5c1781c111b275131f55b126fd8e265fdde8ac3989cb1274622c;
  Double 0x907e6ca0df806efa454760a45d6531e8911524be961db28481f68854ccaa76f4;
  Double 0x178d74f76eaa73bca5b6eb2002f00e70451125257f4bbb21afc676f885d66ae;
  Double 0xa3e3a239aed61f69fcfbc3f82f2b877ea17a8483e722ce71ef9a3ddb763a0ad0;
  Double 0x30a4723c437f95a3cad0db8f168cc22a72248751c9134c9f69506f2f4e5746;
  Plus 3 0x79f281b9bb8dcf6e380f42aabe615365a80864b4ee5b3615d15b5ad6700f0547;
  Double 0xb7d7dfd2dd60ebc633df4932f165679c28f925b5ac1c11cae367c92589a57d92;
  Double 0x75a74a2e990e1651dddec1e928034d4da24fb8884096c0933e6136f675561c39;
  Double 0xac8358ff17e0d817bfeb4ef3654e06479b4046f4105d204bcdc996a0e620f8bd;
  Double 0x14158c03300d97ba360416b6fdfaeab8ac3a1178f5eb4bd17d162ac71ac61817;
  Double 0xae1709b68c11c1e7098c20fee82f6bb9a454bc38421b626e09e1bc8d64ad7b2f;
  Double 0xac06fe4aa0e460bdf9584e9a53a4415762fd5eaa0ad65c054f24ac1f20d388a7;
  Plus 6 0x42de73163202eb335341d0b59e3a3ae9970b891458b62a431cdf035012974a74;
  Double 0xede379c8816bce900ddeab2f33b9113929dfc9242b63cba9a67dc5f5be8bad6d;
  Double 0x6321e085fdeb048016841b6a9ed4eabbc689e49d289e4aaab528e4ef1543312d;
  Double 0xc833ebe4d2586ede78a774475bb345469af61cdb2ad84175f8f1f70280f1e0b8;
  Double 0xe2b3efd3f5618acbdbc5ff4114479d1282726811a27c29b78c10610bf9dbe36d;
  Double 0x98db8dcac6f6aa230669eea791c849268a72d77f1dfb0735b2fa42951a100213;
  Double 0x58fb5d65c1bfd8758046984d285fcedc1dbfeeb0e5a014f871fcd5e426b866b4;
  Plus 11 0xc3de7d5e945646709207307e6347039245c888bdcd851d094cced9e237b48005;
  Double 0x4a4306f1fe4fe56cf8390f421fab831d29aa38e749b6fbe2e1011e229d1c4dc0;
  Double 0xbe310393aadd9cd46c35577957c80e130cdccdebfb70133c56ffc9911cfd1ddc;
  Double 0xf3122739f3c1556af55003207ac936d891b2e51ad2eb80f9e311001be2b8159f;
  Plus 2 0x37cb7a72fa40755ce408f1d83c27e9ebebbfb2ca207486841ed0b920ab214ebf;
  Double 0x2e293dde18e6e71e43395520c05773ea44bad530ab495d611458e2ef46a7707b;
  Double 0xb06e1d39763a83a57fb67b677d4b44e12d71299c9b00785b1112809177da5c59;
  Double 0xb4a04407ebd4b6a776a7bcf22e2391ef82fcb38caa323d9d88f6b064243137c6;
  Double 0x8e3cf932c0d4f29a6d06d10fa6b0279a3dc78766323b22f949e3d9f6adc458af;
  Double 0x25fc3ca056473ab9fc721f3228076a7ebe12618fcb76363c5f7a3175ffa30010;
  Double 0xa931dbe0946393025117e907457398149ee84cd37ae81f43e58e7af5bed2b236;
  Double 0x202b338118db1158d119c2b24bc0efc1980016f0b0e821269f208a0fc1a79d31;
  Plus 8 0xb49293da95446eaff42ca65d5df9acc6517026825af19b01d3cc4f0ab0b9aca1;
  Double 0x370e8f0214178e23448c3e2d2bf282e330be2f2967a412792452a0383df0b62f;
  Double 0x50cf9a814a661783423db02e4a5e06e785ff9a267cc04fa814022a9de2273796;
  Plus 0 0xbd812c5cc435aadb43c291fb04112777d6607f416d48ecca063d66c94d240d4e;
  Double 0x15ed51763216385857d89c815309ebe43b35f69a834afdb5cb1b2cd34ffcf80a;
  Double 0x9f0934630df8621d6a3c6c02ff916caccb0616bde61bfadbe8e0e5aed2afa375;
  Double 0x7e719a2b2ba07ae6d322194e523da6eea7ede79a3be1ffb3fc12bdee43de1167;
  Double 0x6041ba759eb9a87f0bf848fa65af818d3fcfffaa0c80943b90c7449163936b3e;
  Double 0xa6a11f381b330e0eceead13193ca089f4cdce3ed7c19bb361cec09cf272e6dea;
  Double 0xf46c2f33e3c1237340aa05dacbfd10f83f8c6aef5265ffc24313453af50d9f95;
  Double 0xddae855b43b0804eef5626ba19b0872ade9f6db236626d5f6b712d8485de4f93;
  Double 0xaa04eb321d85a9b24fb59178442a350eebd6e42eff6a4f491def6749dfde2371;
  Double 0xf98df2d200a15ffce5b92c6dda3c9a5531dc9992a94b577751465437daae6529;
  Double 0xa8864a877322cbc1ce4542c8e7c353f53675f1c7f4e7a0bc19829f9e4ce5a468;
  Double 0x72136c2819f460964a1bfae484bcc3b54cb83109ec12e57cccd7330829d79a49;
  Double 0x2bde210e1da26d584a679dff95ea1da38cce68635490c4ffb97c18d319b7ee5e;
  Plus 14 0xf989c23336cd460b4462bdc712c53e97e0ecbe111019748405c6fe1cb0b8c006;
  Double 0x4da71139102cb68a454ec12917859e2992226a7bec363ed6234efd1d595644e6;
  Double 0x97dd136a76faec9e2b6860b47230f6149ee783a8c9a263c8ef9272ea92fd82a4;
  Double 0x76855833d5578cc42d080d2437e2aca1261762ba9870254deb1559b7c090fbe6;
  Double 0x22684b03c142a56f5defa9a3fb5dbd6ade7d842edb3e1d12c0656770dd5f7512;
  Double 0x69e13a6d9cfa0f81f89a2567fe2c401eeb7656b4ecca5b017f86852aa4567c85;
  Plus 13 0x7c8054b02e008c156da23a7502831f02e631d4a334d5a57fe86e1c30647ec5bc;
  Double 0xac6752ce2f6319254eb10cb31a6bb274e610b39437e181f929be340d4c1f8c72;
  Double 0x3c9a23cfaadcd99ba7fde4a7ce2b8b09edf8e40d0f6bea71e8278b3a3db0cb04;
  Double 0x2aa2e5b60570abab29011d37b2babb0455424f4933ef29ee5365b9306a94800b;
  Double 0x1a57b9c0a3dfeeebc3c15cfadb8c0b45050ae1118e0f72e030ef108f1c21b6ab;
  Double 0x4acda873eae5ccd1f22c5e6723c4e1211b7e8110b816c6596d2b1157f2e1ba24;
  Plus 15 0x6c814faf2a449bae98c26597669ea1c658396e35ec3b37925a9145b5993719f;
  Double 0x19b813c81558c2172c424ebebd74d5187c64a8870a3fa493196d20bd2985b56;
  Double 0xcea752d27a46ea76c95619623ea1c6b92831a89c828693d6f2f0c861644a0485;
  Double 0x9005f03d74a462d96009603fd20fca7335cd278bcd84b1114d024e4cb4948f54;
  Plus 2 0x8ffa0e60e9530173b9df9659079c7c7c4146bc16288cea7dfdeed8f2a29a5d04;
  Double 0xd8d4c3fb404a84f9a0146faf112eb5f7b8482cd2d86a4736dfdb78f4bd319ba9;
  Double 0x4026935e27333c9997ed5080700d1fe587b0a10e52f3668cb1ff2e53bef165a0;
  Double 0xe91116989d2c29ba1c402a42220bb6afafd7a1d89c0f7cb6f1415f6b30d72782;
  Double 0xef03fb80675b63fa74e7d592bbab53448fb1f5f6f6e7d9abafc1cf56cc106168;
  Double 0x7c8d292b1388f4fb196f32bdc1db9d5e1398dfff0ebd6724c94fdcbc1e69ee8e;
  Double 0xc761908a7bd0e8b5290076087c9e8cf28e62c5608d67ef8bdca2d2935695782f;
  Plus 4 0x2af506ad6a4ebf177fbd6753f3b06f7f8cad9d299aeec277d77b6b5078da4aa7;
  Double 0xc693b7be868b7aafb474c7db3a3828e044558002902955a4dbc8591b409d3d1b;
  Double 0x5b0807dfc13b599d28fc2aa490479cde20ec29a0f79d1fa41ba2d44364eb164d;
  Double 0x8cdcc4ee6ac8be9a56e66134919a93f7bc6600183f3378d913381e50d2c1e333;
  Double 0x310247098d44f3f0e88cdc1a379f407219eeb91c509c2fd566b5366f1c54b6aa;
  Double 0xbf17ec9a30c7b5d9cfbf188f3e652b73a5efc4cae0dca755001331a6f7f3d325;
  Plus 7 0xd24ff00a3b6eadd33c5ab0a93a41ce29d6ef819e2f46fd025ddc85fb0b0a02a8;
  Double 0x8e3fa477123b584f2d50b6f126ada57e27a8f2868ca91f8fd9ce85a1f920cf12;
  Double 0x3b49c33d536bdb2e909079c762d2053f34997113063cf72adcab7d7ddec9faa9;
  Double 0xcb9c5f85b422f288825fa735188a7df1edc1e4d87934feaf8578fb41a155dbb4;
  Double 0x47c3a22413d5178a8a1fa859de9c87754079f873dca68366b5b3929cdef6adfd;
  Double 0x74cffad7c982e8d53c9542f54abc08e84b4be173c30226dd1fdd674b72e05f40;
  Double 0xa59e8e5d99b44f13dff1f9d610976f88c04d57d345936f1c99b66880e3887168;
  Plus 8 0x60df2712953f37cefd8f7efbb157083fb05de0b6a2e0704e7a93bf77d777fabc;
  Double 0x43ad50f41bfa633e57f69e14ee4d5a7bbc3bf51c9146b7eb88fdb7222c3eb6f3;
  Double 0x47c89dc63634a4db627c1a0ac8fa6adddccb7eb722c920879f95d7a6acfc811f;
  Double 0x2450857b2dd9d59db8fabf9930473e4e6df7659531d4b21463b5c27fc39db7a5;
  Double 0x411e6aa4447165a0572fa20665892f5f5174c509ae86a97b32a2a076fe62d959;
  Double 0x9a264e832049cdeac528674d81836b9aa07dcca172edd739f395887d6e6d18ad;
  Plus 9 0x2c1c3c91aba621760a80b27d9d7eb22f419e120909ea9cec0e3b95f9c3e7d4bb;
  Double 0x69b6343cd46e3261cbfba536047eac826a6e5b069d0511ed854203a27dc2d6ad;
  Double 0x1d3fe586613e4a9815c3ccdffefedf1f536fdfc332940ccc5ee0db4890ef4566;
  Plus 0 0xe913bd3cc40444a7a62bd51a89b61dc8310e47f94c8f56737a7166af88bcf547;
  Double 0xf839838e5ea18c0c3efc4d8a88787af906a6abca84884bcf498e6353b96e4ae4;
  Double 0x2d5c87588d26f9c1cabb2ad6143c9145ca8a25067d0d0a1d1a941ac54f1e9ea8;
  Double 0xc9633d6252ea9df0eda9df6c2913cead0ac51d4cd58e74f5da5e89ea5d228b0e;
  Double 0xe271ab4ebd11fff0ec68a819b151c9ad16b2402b2fae6c2220fdd66672bd4063;
  Double 0xd36996ae84fdc0707b26792cdfab4100a637ffa1177d4a6e9b004ce2e8e408ee;
  Double 0x82f4035a2f943ba8d23b2fd98a9fa96b84620ffd6fb6ac5d80d2d89c955d0442;
  Double 0xd9e9badf10498fba162eb6b719bde60c1168f5c29a9c252fc5359bc67bb0daab;
  Double 0x406017862d9e4edfa0eab3a8f08e552b886cd11858cd9e27184ca062f95cd856;
  Double 0xd5848c6f4fd5b83bd71b1db7a6b26e7595cb9e4e755ceb85793f9b01c7ebe7b;
  Double 0x6b5fb6b07544d620ea7ecee63bf39ba52aca024d5105b4989ac25c0b0f17ae53;
  Double 0x1833c737b3d60ff86b6f7ce6577ef5b81488fa202dfb98af92b7941d06988a8c;
  Plus 13 0xcbbdd9932b1046429c5a7d0ce87580363b75af3014a233cbcb516813909d589e;
  Double 0x4dfeeeb6f36c1a9ca52e3abae72aff21f3f5cfc1f1763a5463cd3f9419518c9b;
  Double 0x9054207d23fdd08ad96b38a135a128fb3ef816f72a9d5f1f52bdfd118ba86b4e;
  Double 0x9cfcb3c3101bca8208a3879277013a90fde33d7e52688c097ada6a913a3e7f3b;
  Plus 0 0xfab655ddb77e8b9989c2effc19e228c0c72121537ebd7ec3c6a7e4d048847d2b;
  Double 0xafd086d090b268755bdf504137173c8ccc46493d1d4201e9916a757f7b00dc70;
  Double 0xa5539e4c2a0cea6c4ede3f6173797a79cf2787f06f7e96e45e56c87a2e153893;
  Double 0x18338c0dbb8c4b2cc1c0beac6fe6aba94372e897eff057934f4f1ab15a411201;
  Double 0xfbd1ede4f87d76496c35e8768d3cc737302aacce3580b0b9925bbae37021f505;
  Double 0xe87d436bed4bff39a438dbc5e0f2a0ab3c426665c18963a027a08bf1b5481af2;
  Double 0x6ef473b5991356ad1b67f3fac06178cedf101127229b3473a62ebee5a858903e;
  Double 0x6e0dd9c98c854b371376e234bc69b2f6f225729f77889608a943b942d1aa6a36;
  Double 0xdaac4941dd15a4aeee6c413279f51ed3a561399662a53aade190c67db8668679;
  Plus 2 0xd969a9f860c3450369fd07c72ba36644940ae91d38da9fc4f27c5f9c737d3389;
  Double 0xaeafae58242a90e531e26ad3754e9a553b88d37d07cae8e35fa4185aaeb6f158;
  Double 0x9b3f6216667833ff2a4bbcd12ac27afe4a51a2d3b07eb0e78d312eca1f7159a1;
  Double 0xf6c614511660dd458e525fbfb354aeb10fcf1e624c2f26086ba3729f78386cc0;
  Double 0x2fa523c29a33f7934f4e62b53aef395863ff174d933527da8937c26b6a5c9c60;
  Double 0x60610490a84968ba2933cdf68cdfad9b184ba2853935fd774bef4e64377ba489;
  Double 0x3b9e1fd3f452018f0e9c2ee69240a880ee147a50256c489c9338d92cacd255c2].
Lemma chain_k256 : reaches (p secp256k1) (a secp256k1) (gx secp256k1) (gy secp256k1) red_k256
  115792089237316195423570985008687907852837564279074904382605163141518161494337 two_k256 odd_k256 15 moves_k256 = true.
Proof. vm_compute. reflexivity. Qed.
Lemma order_k256 : multiple secp256k1 (Pos.to_nat 115792089237316195423570985008687907852837564279074904382605163141518161494337) (G secp256k1) = Infinity.
Proof. exact (reaches_order secp256k1 secp256k1_ok red_k256 red_k256_ok secp256k1_G _ _ _ _ _ chain_k256). Qed.
