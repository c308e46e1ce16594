(** The order of the base point of P521: a chain of additions that ends at its opposite. *)
From Coq Require Import List ZArith Lia.
From Verif.Proofs Require Import FastMul Sec1Chain Sec1Reductions SEC1Proofs.
From Verif.Spec Require Import SEC1.
Import ListNotations.
Open Scope Z_scope.

Definition two_p521 : Z := 0x347ba3c40c0c430b0802c88f5d36562faf732eef3a40bef18ec2451904506e0ff0405300f0d5bf5f354a0e75f61880f49b9e4c63a204f704634bc157cb01e52c8.
Definition odd_p521 : list Z := [
  0x70b1d367143a8c6ef56e7e797209f6540cd0edb39a4d948e21d29aedcd1257ef05924f2513666bf0bcf0c468ab5f52a589a13571fce0cb5c21ab15f4555f2ac7c0;
  0x12f7cd4a1394e1dbb5406b3e2e8439f5fe2c888f8ee82805b837d6ddf1066157563f98953cac30902038750841227da37730271f89a7ab8a7d23f01110da46510df;
  0x8762798f758a4c515e91103e21279a433e620537a92957299a4516c89a2f935007e5b0c16b72d95439cf03c7210cfbeadb52d633b4484013cf0c6c562e35f79c28;
  0x5ec03dd3e1e57842f30c9f15a3aeef61c2c3cf4c1f90e12984d61fefda92cb3475b324808a4905247830bdbd0aa19a25497f557cb957cbbda6a5f2a09edfdba9;
  0x60d57f87df90b6ba15c553c56224bc624e43561a0738133bd7bf45692e3aa37d9e2fc06e11e6ab686905a07511a41280e4c57efb32e970426cae0689dc34546acb;
  0xca52748e150558b59bb8d3dca619817291c5d689a0aab50be5034f6423ae6b480539dc0011a56500a1c387dc9ea82839a29a16a884a441c53d27d562b9bfb1dae5;
  0x141b76b660f47ee72cc73862aacfc7739c4f4832d20b7dab0bb724a966de37c497e3453550b1f31308e3f5b23868bf278c863ade9d13e11c1b92ec676b1e6ba6fc0;
  0x16707f61e06fa8efae1e278b5b32f36c7552b739002744fe2df2636067840af3a98828b03d51a1edb35a13b75273cdb730ab0dcc5d02bd3d2f478cd01030ce3f90d;
  0x904c38ff49615e2a0221d9213d4dac2616af0b409152ec5a6b5504b753ffa1cd03d55a8c98413dc186167a0da0537a219ae8a9aec36284bdaebedbcff40d07be1;
  0x11f660aac5e224765e241ab76ae285334809b1046f73719f1b63ce0a96e1ada0b03d718ba4281beb66fb10ba473dd3d859fa6600d11e57972f1eef41cbf8efc733f;
  0x17735e80bde5ac04053a67a3ce4ab23a84ae3fab25c05a3762db898a0d91222cf76d8463c0a5052fc80bde24e5748129eadc8339a0477a0ec5f1aec28833d896169;
  0x1eb6a7b1307c787389c9d37c42518f55d99b47cc8fb5516530ffceea9f568df3d7bf1b7686a34c0ed1f686250810e7ba75646fe534f30f7260c9b429db049bb3143;
  0x9b197c294e33cea671eb5498988dddcc15f5bcf2edec3f1866780d5a55f08d4f3b2d27e76aa3fd60a96a4e34aacd31bcf1868a4feddaf1bf8c58deaa4f458f4298;
  0xb9a0f04b8c6366b8656d411d32fc31dcc754ac8d451e4030b9d531bbfb68c090606fac031b6dd71930844bdff65f355d967ad4be51ad5215622f51ad9272671983;
  0x1579afb0bd9cbf5a6ff7cbc8a06463d15d7c50041a5d40112e523111d4f0883e12d48ae46187799f7abeff8990050853032677a5cf2d7cfbf9ef158b157259449c2].
Definition moves_p521 : list move := [
  Double 0x137962a7f55aa581a55cc5adfed5696ea226093d544bc0222b41785abf2ffbe4420806c6275a591a7804fe28aa316e4acabaa3188b3e1f7ff08b06754b921071ef0;
  Double 0x185c708db66e0c71ac1afa3ab36046bc25ce6d484315702d8fee48427c7249efaf64a1737786ac4e993114ee2dabd6d9c406ad48afdc90bda49e714dfad6ac46b4;
  Double 0x1d98d23873ba762de676f88260ec5c9dbee7210a741eb7bb2ac77fc956ad7fb7617ad61490a551284ce4a1f0e46ce432a9d3e46b9bcbd6a1da1c4662adcbeb0ef06;
  Double 0x5e221b80cf3e15cce682e2d7d7e578c805b2284f594634971b65e2db9f799aa1cef5f09d32d639c16cc717dfac1639c78b5eb55fb7bafefa59d1574e3f003d0681;
  Double 0x194cf196ce4677e24393b951cf98a3c3b10e843a46aa85322bd86e8b8a472b9bceb6c952fa97b2489b71143551aba17072142c148c28b0831b0fb9ac157439c28bf;
  Plus 15 0x286e0b1f2a0e8d51098c267119d8f78f85623326f97e10e3d0a2be54c15bb86dd806f3e3feee92954ac25ead881efadd9e78230c53572d4bb86e984bbd2b02358f;
  Double 0x1548469332cfe86d20150b982cf13ac5633c3f46efde14d849fed7233343f556d9f39755cbb11964a1eef7a6b866179ef257ca385e055719e59385387605d9918cf;
  Double 0x2bf94c5f1e37c68ef72b6eecf23a55e8fa8eb75b0453118abfed81e26aca0e6e89c78675c318a19fdab65a4555892928cbd2dd37c4607cec65f7b020ffcdbf7ec8;
  Double 0x13a42232b3cda6557ee492b4a8d62eb01e082155285889471d2377f01255e88690fe7ede3724286dfdf892881b421ca6ef3b656181c03bc9dbc5e03ef65f2422f0f;
  Double 0x1dd7ee90d563e860a26394d0d78db0d2b741b3639c9e09dac03815a3daffaaacc2d41e28ccdb021333f1910e62d02ef5b45e85f4d8c6f820c497190fd5b0a2fc49b;
  Double 0x1a2aa82bf4bd4867f30dedb9c0ad07ed5d8fbbd91df84aaa0e8c5566d725ad8f980d5bdeae42fd8c021d383260c3a6259e7bd08c25abc00ebb71083769bdfef4f2b;
  Plus 15 0x1fa10859fa4c7a09dccc621f7f0c25da4a34a4840b84522ce171964cc19deef9015c21e1bdff6ed2972394525f381279e2eeaf9057d3854daa4f35eddd6229b2ff;
  Double 0x101a1e4e73fbe491c24af29b493b0de069a054ef62b89c5b637fe1c8401f515c9c04b48792eee513c394e95acc14aa1f7b03593b18705d35d44adc1a0f69fef427e;
  Double 0x6bb20652fb41f7db253ace2f12e42192599f7ab1a31b9ea3dec8c2eae45bbb9d77d0a10297ce9ffac4f07f65b05de727652adec4da1854c11e906d2aafb60138f2;
  Double 0x13da8f29b94581cbf0e17fb0c2e373c65a0185156ee1e5724012ed56b5596f2a48720d932f32b9479bc01be0980358aa0e5fb6a813709070a50d820b3b4866c54f2;
  Double 0x1599a8554ecdab0aadd865de49dd7da6cf8d1df6e16cc1d6459626bc5e02a8656c7680e74843903bdb0ab543d2f86c303d411fbb857f69f6a4253e7610169c19733;
  Double 0x1f686ebf0c3f4f24dd9ae0a8254c7dfc79943be61e73bf7269018170037995d38c9c3b654ad55a5833641b0a241b2dd2e0e56b482de565f6b5e7fb9131e31fa0600;
  Plus 15 0x146cb908eaac18acc4daa0ce804a33fc9a8549266e55c20ef281ca5e414d5941314c1f54ed3d4071004a2ae06f66e66d3622eb934ec02a89e6d91f5c8ea8d7b98aa;
  Double 0x19e9f7dd7c34f8482f260dae2d3d357ae778979da63785df1716de3871d2d8d9ebc218a0e0feb287db84c51085edb535e12c74c33a652f8363e4c9c6d6c62ecff56;
  Double 0xf6b38493da02308ed38ffd1ba0be56b1c94e72ecffd4147ac379157c20745cbe273a6716450205347505aa5c9dd8ec75f08cabf8cb14a5e7feb4558ce2d3f2b4d;
  Double 0x15ff694df90956f9450d09f194da205c90b277f063f1eba07be8d88b128a499cb64f113259aec9c55f7c0921f719ba0636ec32f078e8fa319c7ff9871b9d14a9ba1;
  Double 0x15a042d72d45320956890bddde76c3ad645d98093f3d98e585a0bae6a15903620f84ee6f77996b245e6cea77b730a57de1e0684c66f732b4b871f4f9442a4a57171;
  Double 0x6df58b9e333eb6b41c5f738f71f1b5758338511b5a87280e84884b559e4e91813fa3fd4dec21e37ed01a03f4b94ba78a906da5e18a14806467e2a04b5338221b20;
  Plus 15 0x96521f05efc738d9fb60fd9e4d58667cda1e893c54bd7b32ded47a70af5db5bb0b82552d57ca1ce28c51fa8d266e7221963cad68db1db4ee085b40426c905b5618;
  Double 0x14b7dcd2a111d1a581ab9da56d9b83c34dfb0c3766f83115549f41268c5434f539b50b50837ec8a4387929842c67b5fd5b8f55d2903f43f2276e0692bd041c179ba;
  Double 0xee01785fd9dfe63fc788afcfa2afd610c392409d62f6b30e6f9dcbe98118db489db187d38db2ddaffa9533332e7a04b8faf64966eb3017b976f8d9a9e2aab8c1c1;
  Double 0x2ddb55ce273e98c37bfb14aab20809f02bd120971feee4bf2cde2ff65a2fa0e3a75a49316efa751cc9319936f7f41e36518c44c32f7e29c93533961985729cd283;
  Double 0xafc5ae3d2e75519f2dcfbbd713f3cec3870823fbde101970de716e8b546a4494a22a1cd66c1ee58908432622e326e72b8a744f482870db57ccbe74dddf39d8ddfa;
  Double 0x25dd987e1b6a7c59cf0a20fd0ed437fc3ef6ba52ae854343c861c7d0f47fd9c1068af47630d7aa24616c77819a275ec827dab05e3ea3fc2b5b5ab7d7f347f93691;
  Plus 15 0x527425e415a860c34c7e76a04ddeb999269b54ad6e183bf08e34234b550628bf5d46055215d9f371a168391b57935fe943cbbd16cc8deeed7bcd84e6a2a70066e5;
  Double 0x129ff17d27d0a5219ebdf56e3d76038afe784c11f75d4b45ad0880cb2f52a70f6c3399f8c9becf116b9eda9ed5e9b786922d60fddc46981be80b8b4bed5fc8098b3;
  Double 0xcb29dc27c0678d84f853ede6a70e4f51170a5e391a6c3ecd085d30bda6be52a3b3cc996d6a47fd577e226e63f8eee383007c8feb1ba39ec0119b97942067229aaf;
  Double 0x1e6dc7f8be082f1810a23fa03a9c542920dc740214304058dced86fa4e5806b244e39ea5aa2556c5de0bfcc9a6e83dcc1a7a7b118e4158e996323d9cbaeb2b11702;
  Double 0x1c4d6aaa3ae443dd255546a23a0f9baaee34194fda00e0f266efc0c3ae5501b500dec07bc9df2c15e449fe2adbd0ab827f866332587efed1c6fd7bfd38b431443d5;
  Double 0xbcad3bfb0562489d58b0d5fff940f78f52ff750b76132971be41c017e5b1781d39d1ba9e0bf42933eba86874183fe701ae33c81cd8394da93b0ae91b01b4650975;
  Plus 15 0xedb6d2d9098babc7c17074d80bea614f3682d51c9abbdf18280d909391c7c554c41c53eee451795a710140e9f03065318731973c5d3ad621d06ebf8e0bd3c195a4;
  Double 0x17fd8bb495341794c858e0a8833bbda0aada49be0e2f0997c00423cf69c27f878a0b695044fc3cfa1dce7c47a2566fad400c2051100d504819a7fbcdc2bda5c9548;
  Double 0x1539b234150460fede9cf709207ebc126193dca678dc321cf93904894ab58d2ce5e406fefecda87f05afaa9b9b744b28a48fc34fea3e25a6b3c36b659e5680b9a91;
  Double 0x8de5f902bd2f629e03caa3aa6099a267bba5cbc432361899eb5bd46fb3e9a186e24869ce84ecc68b81197c0f98aef9f2380e55e7a6dff6f21882977fac0c4b9b9a;
  Double 0x225ce54bc8636f90f50451509f0a3b2922b39da6187543a91f3792971d7fb6e3eeb29e19e54411a50521ec82420a3eb53792fa91b4ddcf667bfddab0081f7223ed;
  Double 0x1bca1e8f133e4ea30264fdf41105851ac7c6ec53931e1ab87b80a569b0157de86ec2266021a8a32e9e6c142e6a3fd67f77986f298de88778a2c32c769cc79251110;
  Plus 15 0x5de38feb643337556375c1ed1b6b825c6ae82929956bb6be8c1dc606237722ab96a35cbcd6b6d91ca2f5b0ea5037794ed8de277557c1dd2c35c25d3a7cb4a4ff79;
  Double 0x198686eb64ebeb2da183d8d5fc65733966ad004c8f84c6d413acaeac459c19a2303aa8f769282af2694341b428536fb7fc7cffb4ee047a148625ba5a48df9d03101;
  Double 0xac4c54cd73827a919f5ca10120baf181de3eccfc44fb793bcb48a0004976549537a09a8f3b8fad17174171f15d706bc75265d5fae7ac2b293947f4c2712ecd831c;
  Double 0xf89148dad510d360ee8c896156ec693ed90722f782a5a832b7eb7cf136743240a14f2d11933287d3fed5b9f528efc0ea2d59060dbc589865e62ae9fd2b2509698b;
  Double 0x1e8bd385fb2730bf89dbd7be708e70a7e85e9e40dc5036908fc9834fab3f38557f6513bb1012c77ca2eef9a33c86a68ad39ae6770638300189a531ad59427c96e74;
  Double 0x13820b5de9eaa33ab473b76c769f7dca2e1305490ba7d37f67f60713721c7c472499e3f3caf3171f196cb88eff57610d344559c177ecc45e6f9bf1bc61aad298f4;
  Plus 15 0x57209d8d17a3abb39c76efb78997dca582d073e0a45dfa797f4da43a78862bf388df9702db37e661274820491bbc92ec32fe10df372322d29674a93b238f09cc13;
  Double 0x53392a24d537036ee090a7e84e87197b617ca16c4cf405b36b972cff0b2a40dfd5fd473ecec3ffb561ba0926d4aabc1efb589aae52a266491523596361cf5ff8f1;
  Double 0x1fa0819093695c97391639e27d34dee72d1d006a06ef0bfb872ea96ff08392047b459b481c3b41c2dd76fc41e0f1e3934297e87b5fa58554fdaed803593ddb434de;
  Double 0x11088c7006a9071a8399c7f99de68a5ae65ebcaca3173338dacf6fd046c5ae49b0a0cdcc11b49d7b96104c071edff3f9163484bd6f102630bd6a1cb370fbdc831fb;
  Double 0x16f65396073cfb74b4f8f133cf0c6a22bff06907cf2abc66f9f7c10ea60fe74637fae5db51818875cb8764efaa94ea94f5586c70380501e75406c699a92b2e6d628;
  Double 0x1f07519791308a088ea7559d23aa939b02458b95b3eee3d2b5842606c6ea3b81bcd561c72aba8aa2c247aecd7d2491ac9b74b254e91c95f679c377cd16526d7a8cd;
  Plus 15 0x3245fb2712486579c25dab59ea9489605eb83c9150f2b849c6ccd8f7d2b853f6855df7475dd5b9d314cf3f585d2eb0b847df870e9b61ba0bd8d9eaa0ece347d018;
  Double 0x1c2d1332006976e346e91202084b21fd0fa34f61ff71ffd77f80cd3e493473456586711f35e9eebf72fa5871850600e96668e172f40732235fe87905a62b1cac185;
  Double 0xe6dadc0f2797c9d5252cc641a418e2022714add50ab31d27229b526b3263afd1d12c9ec0afca7016d04aacfa8785be56ca6a72e4d0ab1039574175daac39cfdd24;
  Double 0x264094b2b981df95915bffa9ac128fe4db51be6ce59aac716218b6232d683f726fd15704875b08a5f2705b9b1b7b7821a8626df76d04feb55a581acceff84c4634;
  Double 0x1a77ebda3e33c9f83f3bd2da6c543569ce70498bb3c1114e33120806838aae1291b10514e3f987770d4faff9b89ba49fbc1cb43b9fda1e4ed2ca4496862fe99e05d;
  Double 0xe27b9ece4589e111d5fcd2e2a1139176b2474deff81b2e62fdd4dac3b27c405dc30c939a180ac2120c8fc07db692931b7101ac0828c16bcf62391e7d10b82d212e;
  Plus 15 0x10ce89c3ab704e937a391632a68e098499a04ccec705a4286c74e009465df6c6c7fba894df0dc6de395925f077702fa5574ea905a42f27554825770769fc1a26d05;
  Double 0x183258572a6ab24d58e333f392efb74c34e3542398a3e6c6d6c1df680d6423e3006c3d6966eb3b0ee936581474c34840f3fc565ea64a8cebae4fef8c6630ddea7a2;
  Double 0x1995e2c711b22e7937425dc19d3c8cafdf08ca7fd9c911aca2163b205a1618985dfd582bfe8c704287cd3e5ad8a41529df8997b34da44115554b388ebe00acfac31;
  Double 0x1eba602bba5fbdfb79df0bed7e629186b38bf7d18dd3859fc0d514baa588a5982081657755a554afd56180e2dfecc9198a53cf715baae1375eac11cfef118b6e519;
  Double 0xae435757be19376b18314342134dfaf24e6d0d0a1a4eb76cb96f7044ba5f145bf0dac39134da312ffea801fb56a10debec0f98da2c855e900a76b77c448b28cb27;
  Double 0x1fecc2a8a641b9a36f7c750c40f0e2c156c2206f6235d341871e13a7ba44969af364925513bc2d7562626b8ed33775a52eda39a0da5901ab523acadb83771be555e;
  Plus 15 0x1ca90198bcac96f190bc1e49c6b5145319882621feffe13e99171f85c13fb1267dcf040fb131d6cd495384188cb3c14dd0e855646d874a93020a42362d3673d4820;
  Double 0xf2a662ac4d8897b9163c01e8b61011b069d94014ddd9f8de0519843be8a58a211ea00b46b93125634de3f6c3f37dd47482c47873bb3fd1757e938401c05f016b6b;
  Double 0xe97368025e6e58d5780736f7bc30ee40526c387d701f2e87fd92107f19b60d159eb7c05183a4999d930bc815d3e4839d34bb47e20a51b67e57f530c9ef74cb820d;
  Double 0x1013952b5b02c3bc9e1712895bda5c5b14dae170b6260c3fea08dfb73989150233beb20a6040a7b9a0c0b1f956e2aaebef36d8dc6aac7c7986e796ae3c4585b2767;
  Double 0x29c1770ea165ebdd95f8ca18d4d9b82c44ba60241da1a7b5835f102f02b6f14119bd6206555fbc5334df261e94524a31c8c0298edb334caeb5bf028814af3524d4;
  Double 0x1c641e67435db7896267c9666fd2609c0e1c1a2f56c8aa3bcca97fea7099b86b596a02178e2c4a66c2ccd3408fa03783097dfa676ce3fca40d2c05fd982f63de193;
  Plus 15 0x138031d2a732e24de4121f754078f46b76f101b667c3b3ee33b1a5e9614c05ee18f9f1ca6406b4379ba57e234a01cac7d905aa1c64711938107f7eeac451d98788f;
  Double 0xb08128351d311628ba3f3146d073560b0883ab9cedae1ed30e78f7ac26ea6dcdcea94b8ffe87255736dd3c9980922d8c32b9c9b7d908cbf99ff5b76348bb174f9a;
  Double 0x4bfa81b2964a133d768958f2eb31a030a9127c3c217b9c23d879fa5ee495894a7682e5d1950098d3ae598015e372072569bd0a4271feb012a96f3781fcaa08a2ae;
  Double 0x6d86d2645eb1a81c1f20800efaf68800d53d46ca7bea54e944898bb92d6f11537d0b1f10a93a2c582a0d5d92333d7a7b269ef0f932fc74e5321244d466623b172f;
  Double 0x304503d12a36a55afa67e8a1d49d57cc2e8335de9367b19b7dbe7c479c52f39114c9cfcf34438bbbc020e9530739a3515c72249a7941641d671303b15321026d07;
  Double 0x6ba7646b51f64819105f16a7eccd04ce787701ff8428b3f5ce4953ddb18de255e8bb10ac8d3044aff538adfa81c1a32d3d0a8b76b5c3a22f07c30bdb4152d9d794;
  Plus 15 0x1bf349bfcd68c5ac3f70d4ab5d0bba069800fc7ad8b53266f7e522877640edef49a15a03bcf3b7eea95b02cb7648198ba81bb07c796f25fd3ffedb3ace7ca2efc68;
  Double 0x21c95008cb6d45c69e5a2e1b1a0ec957fa1f875d00c17addeb8cc283498248cb0e0d4f281b600077c8da556a6fc83ddaf70dbf0234e0d6ee4e5ad4b76bb9ed70af;
  Double 0x42d367fa5dde67cfd06cd5949bf1f91af32a5e6b58d10a38ed35ce663f76597d50bd2bc2657bb288c314898c226ada66d3c8862570ccb2325ff83f0ff45b9ff487;
  Double 0x14cef4bb570aa3f2c497ba18350c8629b1c9107c39228b086c11436d00889da0c9c54db0a8cad48c917d0501e7200b953d2894393a46b6c8a9ef93016b27be94d31;
  Double 0x12612a1cfaf5d3ffafbde2ef0e23b6c7b4b7cc9abcbc6e209f8f883010fe912a907745721fab3eafc6ac2f342167272bb690fe23fa4799375da962f4db5188a9b22;
  Double 0x13ea6845b03112237d7a2747b4ce02636552095def6586372bcdf9b0c775a6f3e60c24b36b738e6b43d23b3c99b10965ff53a56e14eb8e2bd9ee58337139b0e26a6;
  Plus 15 0x1e7a9f3d8fee37646a5060f2db123f91976f035017bd868a771007d6e412d2d524c770e09c540a3cb0ff409a1762406cf337534ee9247c9b3e5d39b10823d1f4693;
  Double 0x202950d63979446b5ea1b8a6d6ecaa889c3b86e56b09be1aec00f1c9d7980b443d6c359e11c6496989d1b86d0dcac2d1ebd8a9ba0b884154e2752e250738e0a0cd;
  Double 0x131e512b479caa9aa5325f2f9d03070df71fcde57bdcaf388626c3e782ee424a1b88612063cf98a305e659772c4437096b8dcda04e16a6f2d528d8aadd888cefa19;
  Double 0x10691364a156a7aac960f7213788ba2e77b220fd3026789d684fad47d82284f039d4cb2b7936ff41eccf4c8bf55ebfa5ddaa3921183106f6b1b64627cc0b7812738;
  Double 0x1b84737d6072c260d502c58aaf85edfdfc5d0ce26e90566a51ff0cd6a372d4987d5b3c1a512d9ff3f8fceca2041584007ef97b89fd3f585a455290cb4a756926e34;
  Double 0x213a75fa1f2eddcde003b3eb7bdcd3480a77955220936ff0ef45217596e69e0ebeb57fbd9666ae0e3168123fc0f2e7475eba82482a91041635148d855d984f06a2;
  Plus 15 0x5b8f9996245655207f86c6cb58e7fef0c96c91a9300c343d8b61370e4cd4148d31bb0de24167722c73b18c5b87be51ec2fae6451c43f4dedc689d1e4b0b64ec4c1;
  Double 0x132715006c26f16d2a50ebc9aa22cb6ab881cf0fc288120a7ab405465d838ffad59878a2c0c9a4fa2bd10fe8622d24b77ecbb8a963a54e98b387e6c7b9585a55e3b;
  Double 0x5e5ab51cca39169cbf877c5118596a854087c81e98814ce574cfbbcc0eacfbabc58e1e6698837d0ed12cf93660ad4e1392ebc7ff3eb375029aa2bd8f22fac8d61;
  Double 0x1995faa6cbc89cb56e890eaf8b88d6fe72d0e7d5c520b169cad91850caa22676dc3a27b29518ac8583903d4fc483672c23bf3635fa2b0557a8a82ca9b2760a60b2b;
  Double 0x1af1c79c5e9edf8733803b20f13fb515fe177b25f57dd0a40d3f5d1819cfb59ec9800c870cfc758156afac445ffdb00b43a3e3f30fabd7bf5ec637ebee3e5a3b03f;
  Double 0x19c61c22428f96d775a7c2f139b0265e7a2cfd4ac789405fb3e32a72dabaecd7fc7261c0ea13f351be0387ed09d867468751fe02f8421113299c1b45706b4207ff7;
  Plus 15 0x670b25568a8dd3742a6e42fdec7e0054feb3f7eafdf21d1855562bf6ee18adf4c6856197dc0f85e0b4bf4d9e8df2cecf379c5a23fc183eb18cdd6aefdfae8a404d;
  Double 0x45ef19fadd094304c137838ef9dc3c822efc29485e17c35c084fed067609e45904fe9ed436350e9e7179680500ba8ef0d76e38a485ddbba747e5b5a37ddf9f1098;
  Double 0x1fb1acf53623d589c755e26e33e18aef8c430d8d4c8bfcd353b5ec807c4fb3c37501b6c26fee6fdce92db461a67b66cd7ef3ecd7851503f80026cbc4aa0d3ead5f7;
  Double 0x1831b5ad19dcfbfc94f0720b485662fae1d8a40ab71fc8be5a34acc5f91a50bf5f206183d4bc9d8b328109a207e90da95c27f01228e35a27e8bd75a06b5307cefb0;
  Double 0x1330840b874a566a8b4f458cba4741a5d0b32212c017a486c9ed90c8fc1fb1377ac54b62bc7bb5dce18d77bb14d6db510faafc223ce231281dcf04dc99cbbbba772;
  Double 0x13fc8e696d39fb0bac6b394591884d23f635bfc93877ed308936a793a7b83aace0b12092d111e63bd2c3b9ee2b638e9c6445d8acfb0c43cada1c3cdda9a8700db3d;
  Plus 15 0x1e5b2323ece6a907368aa689858d2f5fadddefd0e64a0839ddf69bcfcea025e83fe0909071288eed14c62bbd6bd50fdb4f59fd8ed2c5007cf51e95a4d885caf42a6;
  Double 0x79ce3bfa0267b8cea0f6491fdd5a714193ae115aac99ec8d9de270c157131de647be76569feccf592d2576b1db91efdff55687ca01294fde76759965ce445184b;
  Double 0x28186de37e963977633d5c34f71e893316705c8661c4eba2f94c2139ea44941f9dcbcb56496c38bf56ca9526ac5e648fe5cb98e9847b5380cf7c28cfa14b2e62e;
  Double 0xad5b9a0d5229546b148a0c3d5a18db218c34390c747e6317109f2820b95d85a198481de47bda7bdf41ca718de5d9764fd7fe4e4805c42daa5601d037880a794b66;
  Double 0xbd78c349bbb0c6fc6eb8c0939edd7d8fc7cd0a06bcbe1a40adaed70a5d1598b0e1ea6b1419e88b72622490b033d6704247ceb109f5c49054f2133d4368b432116a;
  Double 0x14ae4b424961ba59cce4127bfa058eadc77a4fa316de0b252aedb0831ce81337f7ca40c84f1ed9b703b7a80ecab62d344c7b4c9215d88865d7f29f40390f0e58d51;
  Plus 15 0xe4804b037fb0ac79cee55e968393512379f6b27c4c8929dcec70468b751f88ba0d2761ea7230dba5b41c5fa4300bea2b13d3241847f575d3743c11b703412b232;
  Double 0x130f7a8d8144748c84bb31bd9fa894a012f01e8c3c11d7751efa0b06d2bd2f9e382e33f41392b75ce012a58de591f758e4b7647937171f03558c0f33b432af26146;
  Double 0x197a40d1b80a70f762631997decee24e55ddcc01c26d56f7b76ba4b2a0124f2fa9269e66f9a2f69f2051901f10cf488f234bddd298b07c4c20f4014f64edd858010;
  Double 0x3e2dbd1d2c4406cf023d41e760910e9470d9558c4f2af23e98e60560874eee294731853f7699a57eb832c456b981550916f157a5e759ee5966725768a5839ac6f0;
  Double 0x9f962efe7135584df11a11ec78da71e7d7c42ed6499a6c5af6eba69a33115f50c6b71e37d454436ba410b8963632f5a84503317b2a95683c4e2bde8a0afd1343e1;
  Double 0x1663972a2318259f01be8c3bca36d16971b419b00ce359dc70554203ac0e6f1a6983976bcce647bfdcb1f96bbad53a0c9eb02198eebd71615e9d9cc6052e0709c13;
  Plus 15 0x179e1560694a17f67a2bb6b917057855185c043eb8338c03ff7320c27686d60b794ce37adb38c828bb3675e78a10067040b2259169c0cefa347f780acbaf7df7082;
  Double 0x1049286bbf69356e0a6bf0d2b074434e4c72232cbae711caa94700580a0fbc245c1a4759b8849f23efb30f0aad4be69b4ccd0e9a15b860a04510402da7542a0e399;
  Double 0x18db90c12da5fe6c19928c0fb4659c1598ce229a7791b8c85c3c6e1640cae1071961d7f5f463eddf8087083948b988250fd0a625950a4289bc5b0f1cf300d547f29;
  Double 0x1728e1ceefa51616dfca8b259529df50e950a42eb2461fb54821f951b9d14af41bf884d0ccc680aef7aa9c3ef1eec8bc15502a7dbee2871ee125da4f7e95c54c110;
  Double 0x6ef7e8801523dab3c08d1dd31cbcb4a8ca6856c48402fc9c23a9cd4e8347cba868e11cdc93d137988b4274e219bf7b559fcfc0ed3286a511d2e6bc0d5561c47c50;
  Double 0x8907ca6b7bf03fa73909c8e399144d7f135c13373b0db41be0a4fc30a1f14c877b856ccbd06125fefd405e2aaf770bedc6e7428d7878ab2db9d60f090027c762b1;
  Plus 15 0x1c7d2666c457acc94b690c2b45d9d9be8ecc19b402b29231e9c6914fa535eced95ca724b14a108f26d1fa52e767ebb9746604304e4d39f155e895dd4065df5fe2ac;
  Double 0x1cc9832b968d37ce4f128a310c485968d78e090234cbeb24aee9bc5cbd76eb8d7050354dcf8b88a6b617eed9419ead9d7ed40e0dda014d4cf3447100e7dea61b5c1;
  Double 0xf8ce3a4d815d931a75151173edba131e27eb9bd45c81d84389351073f235a1f34efdb9eb17bafd1e41879300ec4e454f83bc0a320074a421d1ffda7ff1ac928c3f;
  Double 0x1d20d1afd9b7fb612def3a53b0fbba163377fe4413c8aeed91bbab33545c2a0a4a446c303574ed8fcd0f2d05dd14a33ab98d702549a450f71d062ab30e97373be;
  Double 0x8a51332782a8cfa9e01d0b9d295adc423164c38686036d31016f06fa97a95e8d134558536956425fcdfac8e5eb68ae19f121a738a3baf2658124a12482d189e8b5;
  Double 0x1ad4732247561e4878465e782f2216efc3e73b04b77091a242df872ddb7c75300569247de53c7c7e6b02033f77e23581891f2d54d40caf0858ff513b095b899320a;
  Plus 15 0x18425e09c36733b1d05d9388d9ed7bde8ca37b4dde26ddb674c34b9c7ce2c370b51e549fc0f83ef5491881b124492afc9f254ead20ce6c4cf3bf3bcded1432f9f68;
  Double 0x19e7b0a68f76b6657251d264c3f70800a1e8b850de7a7e8e96f5e5fe60f9e43f62cd1c6c9b26dc0e0e2199d18f2dc3e7d1bb7d84f3d583a24ad5921b175df9ea8c0;
  Double 0xf1c702a8f98f84384bfddb1507f60859ee98cc56f64e1edf73caec4f4b78efd331da555f94e7d171c0ce414c32249c54e753709fd4e236ccdeb680d085e1634807;
  Double 0x66b1f266ab3092d7ad900546e6682f80eab4b4412f574939ad00412cd0e0244bed4af13c65046633fe857e3d491ba90b474b8866676c2d4e15788bcf5215e5a3bd;
  Double 0xfb8845fe08473be1fa546c7379025d67c9ba2d452f8ae82e5cae53181f35810fd84bc6bf92e52ad104c7fc32f6016dba06d3fe1bb83dd51d1c49663cac51fa332f;
  Double 0x179ccbed688ca1d944ee6ca9389a8716bfddb457589a46b7c6e4cbaf212fb21add0bb0b40d7d1423f8104315b10746fe864ae7169376d206090e82c433e879a8842;
  Plus 15 0x13860201e3c5fb30f952446bd04bf5f90b5aac38e4ebc1b349403141ed683b9b1d44e2cf659fe1f5474c25a16e5dcbbb55985bbb6d407932885f473e3c932536808;
  Double 0xf134d3413d50ba3c1dbda014ec4404eba8f1230791754210191c1cd9b6a4bf71f0c0d62cc091afbf6fe796d8cd028de01fd8d8dc803b60bf879a9fe74d5b058178;
  Double 0xdb32f9d21eb3aca5ebec29666bfa11fca850cb033562cab2d7b541fdfd3f96967ad999b5243972203371bc3222c63736fd6b79b0eb34b082462d38c5e11334d254;
  Double 0x146575f1d1712fbdd63516218e281f1c217fd72d53fa610f4aba3f9761b613c4761c087cc260e937174ac835bd0a79ebb13436cab05dd2d070b3f83e394070c03d8;
  Double 0xd99d10d168db0693d7f81becbe5bc6e8bf28590c21e54e0fd3899346f85f24756d3c9b1a050ce1a25c94c725aa06ed238764d344f63447acf125104f07b0df8a2;
  Double 0x119c223fd6a9aedddc27076b46cdd3f463a3129b1e464a456f24d4f9b5bf2a1c8021ae0fe016481a2917adf5ad48ef2b944acb70370ffcafb36c3543e7c5b8f1657;
  Plus 15 0x7619893ac5caaf77e85106957ab9c964b045567b5ebde713b8a40314dda4e50b88a5a85cfed883e313f04bb496f83d9b40e519b2444ccd6e2d219915213ad5368c;
  Double 0xa124432dd394f78910a355c42d195d6dfd8964a59c17cdcfc3a5f8d55f4064dc79cabea7491655a81b1b894f671d1a276a2fb13533cd049e80d5571e432863554a;
  Double 0x1479fe0bfb87ad1760a8cf67342549db73c04fb0b6c984d0bd77b8e7249121de0ee9cfb8f2aed8c068363b2e3a8dabf1ab0a6e182c81e17f614d9acd79f3fbdf2b9;
  Double 0x8636fe2df5a15729f44628f2da6e1bee0e68802fcf32b8c12a50f30ada1b298cbbb6632015aa4408b06948cbbf29effbb9e2bdca8285255972fcc71baaadbbd0fe;
  Double 0x182761cae6140549bd8308c968f5b3022159b959c70aa87bdd7dd3b6d87c134a2ffa625362c76fe970a9c307df688f27c52df227794e095b24b68ed8f3632492af7;
  Double 0xabcdab331dbe321c667706e6728b41662c2a682f29957b286ffd946a7343900d1b488393c9350ca962a8e99a1cf7a141d8cb64778a725591b3f66f10b04a4dc80d;
  Plus 15 0x196d8cfc5339aaf9d086fd11a039128597f04cab11234c7573839f02a90515fa7360978ad64d16127967d5f2c68c176e341ca6994e33e13968dba794b3161cf49fe;
  Double 0x1171c3ec9e099e3bc0b7c2f7dc3bfa76b453d7bf272d2bc8ad071f28dc445942983bd8e2ceceef2a15d9378ca55045ef0cbd50d8999d5f6287a3c64ae1b98cc0bcb;
  Double 0x19230113c36d4cb4e0b37b1e6a0b144f120057ecf6451f669ba31a03d741ff6531e223c911ceaef415f4dcfb5b9c240a41272961d1676c42eb6588430bcfbb8a0a;
  Double 0xb36575b6dffe7b741cb8f84de6d39eb47feb51ba45874ce98b0e9e10d95471fc2d6d147ceb144f1f0cb3a7d1267e0ab51bc1126f3d73dfa2495d8fbe22a0f15537;
  Double 0xb7819a0b82b7fc32aed74f4f134bc56005dba57d9910d49454bcadfaba3b46433cbf6239941cb6066cecac1586ab9ed6d48180d8784385d29891269145fef1b5ed;
  Double 0x4fa16ef216db6a8e6c8c157b22006e53b98335ea9bcf0396ea9b9ad9dd2fe3f6c802c169e59ce7e6b3458be95b0c5c5bf2c446b84d7e2c6b7c85b2f49c2e35ca54;
  Plus 15 0x913a16100d7171914fe518a60015bf13ec2ce0e36820be6a6c710e99cab8beda24f38fd5e16d9a82efdb41b6dc88c6647abf3a0a707496d3d33cd404a989b0f953;
  Double 0x15160077381e06feb241bd21ff2aa08f13cb2c45e0a8d702937521e63a463f7eaa230be4976487bb311a8cc90ad2c0f9a9f7a872c7d0eda62e6d382645d412bb189;
  Double 0x115368b8457f87eebd8c3b1960ef0b0e2fa3ec9bda0f15ca119a6e7825192e31fcabc3171be7325ced472206b0098bb5ca72856df100a9eb15c5fdda0c091cd9ba2;
  Double 0xfd2cb40709f4000177ed10ecaac6c1f3f8bbdc7f4198b839e774567eebce5b827269cceea514ae4a1c2b9b09de3522e7b2c331efb79f30f9cc95ca8fc2deb98bd;
  Double 0x1037851d910b9dcaeb3b73b3cc39f55eac93c7f5587a918d33b51c9f386be78c61d966b8be25a56af649a76b95f7d8a381d9a674e05e1b9512b7fb7a2fa857072ae;
  Double 0x177f1e8a62fb0222287b820f0c6a1f120f84fa07d15e0b2938ea3e2ee124204ce89b9ed218914c82c5800640471e432e656635566cc868c1459d7ceb0f55a6bb8f1;
  Plus 15 0x1c14bee5d8afe39a52fad5f7b09f83b2dc499d8429fa80ec47c838e70a77d630b93771cac54d365b1dc2da8e7867eb42297ac0e75d819f89d1c420979a21525a15b;
  Double 0x139bdae7ae2e4e382bfa116fe718c702ed7b5d80693abaa2b40f0672675e4be717a6b8da97745b4cdfd2c97dc3f4279877a38276f8466d61037bdb0c64a5f9531cd;
  Double 0x526408d76e50cdb6c601ab5344b611c926d80cf317be4bd5f9847e7bc52e69146f7fa7219632a2cae6250002ee56dc013ad712743fca44a51143f81f99d59f19f;
  Double 0xf164901d548c21d8bcc5f8272005edac2a20a5ece62fee8a5afaf48a8c7b9580ff65821ce25cffe46dca874c832c6a3bf8ea133575b856cb794be5968b38611234;
  Double 0x950c0b0fa6f7c3096316e9d9f9f91a3f82a86cce066a01104da396380a994860267fdbb994bfc2e9787a364ef80e162f4c98678333bafb167896d4a1cc4d2cad87;
  Double 0x1a04458bedba14f16149b17d6dd1ef56a1dd221c1ac97c3c1e464735bf558ac8e30d498876ced48138989e9fb7ec22b584316c8defc8427789bb50f453782da2304;
  Plus 15 0x10d491948c4d53abca057d4baaf40c21d58fd747465df1e5b85f5220db3265c8868b09b5e6ff4bcd11107dacb14d442c05dcdf3494a04a315cfc9f13c1c75eb4e9a;
  Double 0x17df6ef42d054f92d84e832dcc90599258129cea4c34633fdb0d90845162c0a5112488bd749a0bb957c0de2ec1161970d5b85df76d8807823bdf2f773fc06ac6138;
  Double 0x16c719379d6e3d144918c583c49d96ca7c1e08a5a4c08f40a42c059b50dd2c8ee70bb73f6c7a4815da95506c03d02af701b79a1a08ce1b8e146e93f527c0d13880f;
  Double 0x102ae42603bf6a6e546d8165951edf7fd5fddaa2edf02ef3435449ae6cb292f8aa0977916af39b3f55737bb95846daae5b09f36b9c5fba19f185358022f3495f1c;
  Double 0x12e415cd6536568120fffd1b8d5184018586c897dc25acd08d2f27d6b75df4e29c8e44f495ecfc042ce642be4d3ffa19bdd2b2d7c6690f3ce79277c7762fcf9201e;
  Double 0x1dcb9a0bdc5ee337ecc6318b5bbc5596eb9017a8987ac146499484b59bedd9a5780a3800dbfb4446edf41c2e3d27e1142dd41b4f6dbd5defdff4489ed11532e625d;
  Plus 15 0xa24c5dfbbf3b0a3604c49048310c6eba7a14230924de05d7c9ebc3e064424e1cae89fe6072865338fbf5257f00196172221482fd49e95e86b8601bea3188e3737a;
  Double 0x1a87227c20fa05ae04ccc9ae40f2b4efd59207504d3beb545ebd429ea17f20158a5d857cd073fe08b0ecb4961055a8c35676195737e7a1cc5cbf73ebc130cc94f75;
  Double 0x27125773a9938188087518b24788d3bb011800f9582cbaca70fb2cd5ca8afa5e61eec962979c345f4e9e1525aa8f9fbb5f2e6ad7e8e6824d555ca7820be70f9a28;
  Double 0x2a779c52df30ec151d0901232aafa98e2d017c4503147d3f1eb9309e5b24218894a3e09e39347d519b83ff5696c63778d78e5ac16e8d879bb1d420be1d0ee1397e;
  Double 0xad137d80d5f546fc9ca582ff8d295079d98907db191988e0365ec1eba6b50bbc7d7a0ab1ed93d462ac3c01663595b598f18644455d63ee8238cc8f31a0211c27cb;
  Double 0x192ac8f5e4f9a9cc8bbfaff20a54caee4e866aaeb3c431298c1dea45f45234a87c57630f4604f10c7866cf004c20c4954fd847421f6df8c2ac7b47ec187e9b7abd;
  Plus 15 0x3f166f93b2d68edd3d0b2694f91cade4b3474ce5f9d2a86cb5e4cd26a090d7196500f652eb6ca8353fcc798504a58405fd46c469b92bdbba0685f83a67c3910c38;
  Double 0xc814944cf3f136042b156210f1d69c300b49c1513904db8dd486c298052ea37bc93be605da84fcdf4e7d1eed8f110d76b53d748d99c8f067603c5e2335c2222955;
  Double 0x142aa2cd5b9751a1768e94b9a1b91db666eefced914db7437cbb53533011cf5e576dd43c6e1d5c3ab31f3473f2f967b3e7718ab07ff152239d489fe4ceacc81a98b;
  Double 0x18631a4d35ea8af5a593c1841c742af86f93c936120d9758776fd954ecfd2fd28d221cfc8c1fadfda33c45b1443be3f5ae05da8a89aa16367642c3032f824d68503;
  Double 0x8ac9d8bc7f4e3ae6421c94a5e6297be572ebc59e10589383323454eeee65968f8594fd8512e1aabbefa057040cc1adeee880a1cc4c7a561714ed01ec8c7ee420d;
  Double 0x1cd6dcb4f2f015cfdb5909c94dab41dea2194a3eba60f48bcdc0413d99c7cec93793b033afc9cddeedb7d1946cec78b56cd81b20c6ea4b4b836649e6d1828fb8566;
  Plus 15 0xc5c94c81dbbb67c44267beb50633e2a40b9cc3040243d67db1c3ba5ade65277fba0ff0854cb1c6855bf680fba9dc7cceec032f18717adeca9f5a2d975b2643228c;
  Double 0x951150d00564304bb659725f182f114a3b8bb9e45cec699ca7e1aef64bbb15276eb101c2fc9737350a3d09b30622649c93d155b0d7a58a6eae439a12da11957fb1;
  Double 0x1f62c0f5cdd12f9d7a5209587ebcf8309d9bc6950e7bbeb2c706ab3fbe7ceb86717581bfdb4aced98ba96f25fb5ef129edeba0e9ad941316b7d4bdeabc5667479fa;
  Double 0x1fe3e460059844918860b66eca8da05903f07de704e5b0dcf31fc1868faf01e1cd9f3bc4a0c3a35eb3e6014327fd8fb9c8ec95cec7855d8cfb036f163d2f3cfd054;
  Double 0xdbc1a7d06555cddf3da3a4e25686f4f29f0b279965797c250c87606f1efa8f9a0b78c8f333e3485241b34cec11c51de9e09192e502e58f20159193ce46d5977a0e;
  Double 0xf6e7c3d0f1859d387dde1c39cca181da7bb81cfa99743114de590936d0747eb293991d36c8bcefe7a7d9d46045a7f3be4fac79ff21515c504c521776e6864fb304;
  Plus 15 0xb445f6b1caea1a0b54bd94242bacf537bdad461ad2927ad393f2390b4a1112701dad5ecee717e8e7fbb56d7e81bd7a23be0978c6a3f9cee9cee5a922535877bf34;
  Double 0x60006dcd59833d424de784450eb14703528c67f3e7e17e596f31f990efc600e7077b577fc536b32ff864865fa6d98d5ed03bfccfa7054713bf57b88284fdc60d58;
  Double 0x13531f84fd800d09b38dc326ec51c4411ecf13c320993df1571a0fe69e45de1e6821a65d943a8f6300a20a99e1d1041dc4d147af64c2e5326153a8e462317a2af6c;
  Double 0x2f272851538d2038a02d593e2ce3bdc6fbb6208ce4b2ac110723c9ee45273675d4400254153ba3361ef2c6a5be9e0c704b8181212006e6957669c57d00de5693ac;
  Double 0x1f5530b00134d7b2484dd65bdb5b23e0f8a0c18ee0669769669dbb279719960fd0b47452339de4058b459a80a7d63a510f5502be3b46b9fe84137373f352bf6a2ef;
  Double 0x150d9ac16df70c036b67e160b20be8218d2204ed8ceb752e00a4b468d10de74e6a7fbb17fa6d8d0c6f6be2105cdd0ef1705e7977069a75a12c8a32a0de50a4cc3cb;
  Plus 15 0x66a107e5d1ce259393264b8fd0d15e29ca7e6089360526a68eba08373eabe1c0237d907c1e5a805f923858744453770322ef9469e8d4fd9af347783a6a68af228e;
  Double 0x14164a7f2f04cf3e1c478c61c18e279cfe1a3419355ed0e5a43939ecaadaf87de9db66fc67abbb6ec6fea7ca93e49540f82b1acd5fe8121b67214a7b9c729b566c5;
  Double 0x1fa748f411e8398bea2a76894aff47577c0ba1c4dbfc6fddb2e7550dd25f55b6dea8bb2d2e8fe0427546992197be379b6fa8a5684d4de7aef9da913429798ae57cc;
  Double 0x1ee1b5ba92125888268cec4d0621f67019a486f35c2ca5246c964bd46910076367a315d3af406090e0d36517a900c218e950bb1ad9cfe50ad221ab46db1adfafd94;
  Double 0x1249ba8449f57e345f9b4eab9505f2071a400eb79ba1cf72820736fe7e9f156a7d0b29d7154b7253fc23dc10a8340ae246681611b0b7ce6ef24159930ba27fb7581;
  Double 0xb4b95c92819cd5a47f32657c1671ce6c0f6c46eef384d71b2d26121a33618cf86edbb9d1834345b8620de64f8214b043ffa54bde68ff49310004bd48120baea4bc;
  Plus 15 0xef37449cd34ae190ca671f242e204f280c5b9df9368c265b10dbdd12f1f1f07851242b61ca4d22b0416fea5bdae867e5f72bc6fedbbeae05f74ce156f8295411af;
  Double 0x63891a77d6616f9b132a0e5a74095d27359de5d4046de4b8b2a3abcaac4e29ef207a4a1fe0fe14c8ea7afec70e150b22e7dec211ce0e3a5d68a757d3b357b291a;
  Double 0xf9865d768645419ce533e43da0ab102e58b3615e4a9ddb88266f679cd2abe0ae6abec8e5a44169a29ced8efe97759986fde6e5d30f49d6de735fbb7276c3d7fc03;
  Double 0x1fc9626c9478812b668c2dad5df5c650b7059a621c48eb1a7a34697f94193a1d7fb3a24dd5477b77e8a9e8706628b32a5321d2662282408abf8400d33632b8c2f0c;
  Double 0x1dd24ad66f10cb59783c493a3dc21be291bd30e1ee3db7d000feb0c010208fbe493be1b24ff9c0753ea81b71da35ed0164269b7ea1213511d97fa8cc7d43aed4251;
  Double 0x188856eb45f649ee7fe462fd755e72c810a9175cd7f0dbeff2c0c7c03eb73193c1970d5e28df40c07ebb8935be326c8d5b4fb4b93e38a2ee4f9e20d2c288a2f2773;
  Plus 15 0x1f0bcca125c0ebbafe7f6aa671a6c71dadc5024d394b41ea2c4eb47b0329a17dbdeea4aa1fae0c511142ae2642032174faa479b79f7a1b2ac1c2c4999d787912b26;
  Double 0xab1bce4adff0f552a760933afdadb8009d3e4f7765509a33133aaba2b80cf75d9a8961d13652522555dbb80dcd83f112cde30e44e26a41f0ddd05229e6ff7bd3c2;
  Double 0x1907a3865886b988c5ab86bfb21cec85c93cb09ec2d09149800a0546359639de2ec2eb2a716d13f984b8692ce3a1d2e4818597178a2d4ff5aff592a0c7fbc8b81b1;
  Double 0xc1023a56812fdefb8edba07e424e49ec3c398f2758027aeb815751edb161320bc008d9ef13c44c6bdb96cd48e3f9ad024979237ce270add11697a912037374c522;
  Double 0xf4883e4df6e7521efae419044c8e9cfc3d8552dde016c1a296c446dca764c168cf1bfa159f512c53a4c1869d5dd0ced13df166f203c9bab7af5e34c12044da0271;
  Double 0x5da07028e26bc461a680d35c5971e1f2301044eb2c17e66b870917915761b8f27604395c7af850dde85f1395e1c2a44c13b873262bdde1910a8dea79f7bdf3fd13;
  Plus 15 0x228e227e66f84f5f270d1b01cf7f9fd1b1d454d3c29be259e5544f631ac8e5b5a992842c2c063f450c8a14768a8b8f7711cfef44f1c2bc9b93bf14f871fc26c241;
  Double 0x3b6b90a3a3ec42254d90b30dbcc87a0d616df35a9019d1f8d7597c33b44775a05ec2c2ea8857b6b9344ea20406a777e9d9405a3c16bffd47c5b8cf1ecca81e3222;
  Double 0x14ec4be154a638f74f69b742474574fef191a7600b0beca01aef5d085013ad38874665f1eaf9b0d964f16eaefd9420f1b8f947e8ad56d8bcefdda7a43b3f877e2c4;
  Double 0xa389f8b7bff9b489aec7fd7135b81bb604c50839181f73376a0112f1d58eb3b86b4f28a5a9c361527cbf8057848aaff93895b51493e2ec05e8e5fcba3196bd5b8d;
  Double 0x89c559dcccbd65bb6b94a6076dc73d3a6816aa68d8964efa69a5ee0fd5fcc8224af7b882359e113b53aa786b5b7bbcc442d3b04e669dc570a7ff9f7afe5300389b;
  Double 0x11f7be4bcab10f59aaee270b00cc1a84518fc2f870f789f337b83adf918544418d96cc57e7c6fddc54ada331427cdafbad48ec7b71f5f958a293243478788891bd7;
  Plus 15 0x8a1d454c653856cde48f7f2362313b20a538b181225a6f89243afd066a79e369650483dcd28fa3bec77caee7f9f656d955cb4ddb77dba3752a64651ad48233c763;
  Double 0x1ee0cdb43d1f2a44e6ead9112c14dff0dbb3a902e1cde511cf06783aac07bfb096486e594df4a85f5d9328e78721cdb77311751b47980af1b0ee679a08336aa85a8;
  Double 0xe3a3e0c796896f18e813c79298a7499c29052d6ed9c83859ed8c630d5c3448590c930930b0beb90c258856bcba7218523bc7337a7ea4806de88f4b53908c1f7b55;
  Double 0x1689111d435e4d43ac83b824ddfa4ef54d6e0eb4e17fec1cbb04930342b18491b201e536fa880ab9455f33f261faa86a4d14738503d022e42d3f3471e205e5f7e7b;
  Double 0x1afa92d335987dac6fdc38696622aa4f2500a68a0a67348580a9e94aab7400e74527e28325569007c40023c51ad37f5c836e216cf769164bf89c23ab89344a46866;
  Double 0x1f5323c0a85f16f5b7ce83810ce990dcd110f7353bfcc73de30ff3d7024e6371822c3b28f9402fec5c38d1293f1e5d36151c1f4c8b92821e9c362d85f4cb8c6e611;
  Plus 15 0x417f3a9121076fd7b9f7469b8e2b689b83b3029adb37b45341bcbbab6a0b4fcb700875059665252cd1c9ba15e963ff655acf8e8587e06e11190693d3a2e005cc4f;
  Double 0x604d67468e2b7e65111dcaa42653ab7cf59c6dda9ea434be2fd11b8ba3e63b15ad7963fda957a357aeb97cd020507094184121f628d078f28c9c7dacc8ae4bbad4;
  Double 0xf9ce72a54bc710fb7c86823bd1dad5d921281ba6561fce7217cd234944f5d986a8c1a945b47a0fd0a0ccc6ba8e87cc01e0cede3b10af1499d181fa614b7a1285e1;
  Double 0x13cb1a6bec931e273c405542a084037268294424492d44021aec624a5e1b40bbcbfaccc2c87bdbe3303a0d723689c504dd46754f1a2933ff32984108a09b01573f7;
  Double 0x125df704c002d61fa6f6df574e5769363f9d3a1669477289e12fcadfe9930160b5372594f2c744ed483df995a76d16396eb549af729c3462c56fbd503d7145bc826;
  Double 0x68d109335e49e0305fa8e633c24c719122b47551025b80a15608cac4ef5b85ad1d8cd12ccd455c1dd9db041d6b5329c7e01856e47d85f404fa5ce61c946e858255;
  Plus 15 0x139a5f61cb476280db1c457f81d81b8f097899d531eef057740b5763c0feebdeb280862662dda73406c71c96af83ab3c7962947c150becc738118cb32b52d75eb78;
  Double 0x6c696110e6f85b7c05c85e614d8a859f777146b0cd062e5c61993182fc6eb1729e4c0c6a9e3427ff9c0c8e4edcb035bdda62e6471ecb0a6b317d22288b46f58604;
  Double 0x10a72f84cc5af3bfc0d0b6ba706be9c5f7faeeeaf2888f24dceab05524b8c58e959f0d29b1c8bd37bcb5bad95c990d2bf828d613afdc2e4b172ac5593ed47b25f9e;
  Double 0x8424c95d9f620a8c56238bc800d67d6b7ae2344695a28f5a5843db5b8b93d75811390b51ecf20ed605eed488fc3e872e5ffc1f4f42fd085c439838ed8bb2735167;
  Double 0xe571dd97e92b03c8b2d480b4b3266c06e0f305c119edbf64953ae486ad8ae14e2e09787a35eab63cfc32e34273548af84d438a22e9ad284aee545ba80d504626d2;
  Double 0x17bc85ced0d59792b03a61387b78e44c64b6107269ba79ed2fa1910af4901d22685746792761ff6d6df870d5f7daa1c1b3559c369d6f7c6b1b031a94bda54c85589;
  Plus 15 0x17145c8152634f27e7f187d894adf5c2415269382e977e031e7a12f837dff726fd531b7ccf8092d44afbaaf45c4c8fc12f424d1a9c509c74b3632637607cd4a14e;
  Double 0x175e560ca5c52ee8c95f9495b26c4e4fcf054717610799848cbd9ddddca689b9fdf2c5c5e61ae2e70235dc9696129ae0289d4d48163d786709cb97b1a9cf360500a;
  Double 0x13eedd1b1e5e1f1dc53fd4f96d9d260819b43f5c37e73bd6248bd5a95d469c0d84d20b300ad19c61527925eda56d653055b2d43848e03e401673a11cdcd486ddb7f;
  Double 0x3bd0b11c6ba3cd50c770f73da69b5f8f903a2f1847c3e3ed6ec82465a2c0bf8ea86ce54c1c8fc2bfc9800650fc0c78af3c8a399ff11b302bf80ec358391f9c5dda;
  Double 0x2fc28e0745c3f2663a9efca7a2fceec616aa2d5a126595baf5c7a41add9709a41b5fc6b7401ca09793f1d8e3ac4ed814ee975c97c0d5c2a15bb5093e283b2f9b58;
  Double 0x1027cc2fb18f043e1f428968f26d93addaa9e203224545eef490b4d09a930ca6dae504836e73072a9653868b1b7a6491b9415e436ff000b0e2285f64f62649fa8fa;
  Plus 15 0xeb4ac468e17c7d7385bb2a9cd1c41b968c4645402debb0d663a59221340529124d6d3feaeb8a3aaa63aac7e52124deceeea3cb19dc52cc7f50bbfcf27534bb2532;
  Double 0x8cb6ea449cdefcfe87d1ff037a12de257cec0f631c40e510fa7a808851396a20acab118a057e2f97229b77cb0771a3fb14ca404dd100314efaed5c806103783ef6;
  Double 0x17ccc953f8fe840debf13a942df440b5ab7ade535abbfd869182b73d1aece2568e71ebaf85b9cec885b4f0bf147cdaafc33cd217f749f095c23fd2c3d483cfeb7af;
  Double 0xb4f6adcd3e0fd0f33846bf309bc22d5e164e95f71517c9bcc69961f35703ec25c4a994411280e9311edfe03dd6cc69489a132237064b69e385c3c194cff6e1922a;
  Double 0x1e37affe0ab85079f27d06e78a3e6d6b750108bae360595e53fd8633118c9bd555db5b76a32212c7ebb9c6a52950d6a30150b5f4eea76efedca33bc1b3d9453a70c;
  Double 0x4e66340b8128f715d63f6c0ad14282044f50f5a786830472c394bac434b8a96657986512b4e50c14d4cc49cac80f50d67a8555e2a01c132d85104cf7452ed852a1;
  Plus 15 0x10cd181c810bac3e9f693ee6cc5537b72b58481cc6bb00c0fec94eaea2806dbdcf386410d06e3cfa68a690d18974872e12e7e90b64ebc8b89fbd2e641b82322bd05;
  Double 0x1f76e58b5f318e96aaf9131cf293cc0c77fc77dc632e5014c1cde3e52a588099c941dc05e40f01f098a98377e9a8032d3de0cc7d10192603751a0c43bc86d333b2d;
  Double 0x4d2bff1650c199294267540e88083099886e6601f5adac84dbf745e1e13b3f4528faf8ff49e29591653ac315bbb3dd4bec0657c0c80a3f6388522a8ee6dd6ecf25;
  Double 0xd09624e0d2f12121fe753a73b255db126ea27d500f2db19f37733a7cbbe7fc8f7c186cda67e25ee3887775a461dee86e8a2c1e827b4b3100f5255471fc50f2755;
  Double 0x11668c8c5ee97362d37c5ea1e20292454cc8130619368ea761f05cb6e95ea4c15e976ceaa2a561bace31b5d7e0fe31cfea7d277bfc41b8ccb09b51ec669918ce1ac;
  Double 0x1a8be42558545a2feaa3ae1ce607f6b677c86673034e26b4c0f3d097c023f7622e9952c4a674328c9acb0d78101fcfd3ec7fbf46b27eec73b947636e51cc6926275;
  Plus 15 0x1a5f3b88e3a974e30e3fa2f0d26cd21585e075ebcc2f41538597ecdaf27cd8b29389ae5ce9d24daf84e442e48970c8c421d9619ec1af4e1d2498c33ee1fd9661c39;
  Double 0x8f598e3b68eac9a94d6d71939cbff1ba223de6abc316e05bb3d8bfc81840dacac36e90bd6aaad104cc77eed2cbabc9685d3160dc23223fa2eb8670d4c93b6d0f0e;
  Double 0x2d8bacda4680073d7a4c965de61195150ea0a361212d7369cea808ccb737811d66539552b0d32ab820483461dba069b93f2dc16dc0095d688cd79d6e61044cc22c;
  Double 0x2aef4ddbab392ab112e88e1c952fe0e4e3e3b832da399a5c886cc5462a887f2fb220680d1d057933509d48178ada2483a4cc5be2befd430b77b039b1ba27ec8a0d;
  Double 0x13d14857eafdf92c73b65f64c7769a7a3e2f7740c5288f0741251bdfca6ef2c8d2c3c6156fe507f22039132b54ce6d80f8081281978291f7651c3d3f723d764ac09;
  Double 0x3b2e0a66b3719c046b4b48b3ab38fd850d33d78f6087f99109fdee697c4468470d2140e2646ce1656bbfe1f98b4084cef54c978fca8a56b639d0191982cb8e25a8;
  Plus 15 0xd2e7f4dff6d423976146f1b0a1731992a68d692af270874f545060773afd4b8925cebda8299292691141ae2b6ddf5af2f0579101e53161b50c1a41fdfb84b5e25f;
  Double 0x1634ff2cd055853db7a60f7a2d9fa7411ee2cf22cb51c44e0294878bc7ac1131e16f54f4b875e2e44e204fae44dbe742f9c0bc049d85201ef66bdf75e33773be8d;
  Double 0x239ad39da383b7022de29f05da17cefd34c0dd5923f3836fca650682e15604710ad51afc9e8036fce07078a660f2a3f04d79712e2dd9d2f05882f32e3a1237b5aa;
  Double 0x3d6d2b308e08e7670032f6696e3a24dfd7ee14645ffa93d6e784a60ee5618565a0e6a9e5962b1df212f0c48f68c0de903045b04d3a9956b2f342416f2d070e7e4;
  Double 0x66c4031defa24398e5686deb0171dfca872a618833fa1203d6c8355903294b14355a2ebc6c62b85ef9ec829820c3e1bbbd52a4325458e273da31069d990fe3d03a;
  Double 0x4a8764a30cb2cf7f6a00efa2fe80edf063590cce022771cdb260f33ff0718d6def32594ea0f03b79430791faa670d18c8c8de00a46fd3d8383faba24106346c897;
  Plus 15 0xb74c4e053eb60da6f2c2f83046f37490c12699e4deec62f06045cece828984b856fbd75bcb0603ac066c20bdcdae1115ef141b093ac6410f1de2224cee66103fa7;
  Double 0x176990f3ac5e37fe96d7b029ce5ee3a2c575f220926b8b8e5fd9ffc646d31dbf6cb9ea0c0c6621170418814f75d915834abdc30a00798716af8e710ccfa1bfdc623;
  Double 0x1b181dfe58f227fd4163c55991a6e10a81b78152d1483baebdf1975eb711f96f1a843b4108a3cc42d28e1784cc616f17de8e37d6fa1078d9b52bdbdd5d3df6bc42b;
  Double 0xcc29907a20ece5bf404921b5a5ee34b88ec859861c5f40843adbf532f8cc74254d56e777e750856b61d3472b828ab22366c8d84eb73330b6c7fc5166e163628f84;
  Double 0x13a82b07391faa1bfcb7ea43ba7655de726e50e4feb3bf43aa7af4faaffc837170a7d00780a1de89f0ee47fb2f3fe7ff5c72ad36493657a0bdee19b6be617beb942;
  Double 0x13723c71ab5469af181c9b28e8b25845865ef7020d4237d0edf849c667dc89262befa602f70408ba585ea76c124ddc68c3fe1f0c03b97cfc2e66ad5cdd407f8861b;
  Plus 15 0x1ee867cf756e14a4edea955290682a98c60c324d941ebdd1c46f8bdcd69144d1a1a6869946d5a315a71367815728af172afa2d3c812c80e7e564e1f8f3567446348;
  Double 0x1d069881203963cb071d91ed5e5669dd36c9fea6afd64436af02e384d15be8aa5e95bf6d9cfd6b57cb4221edd83624de295b21b0cdbcddbc60caf1a4eb43d275f60;
  Double 0x151f13eeaa1f9fb7c7a8bd5e759ccaf6961ae104f7c766fb2a5be3fd3f20cc479dc774d37a257a7fad7c48405112e8a3d1e85f82992dba169e16ba9c6f58dffef47;
  Double 0xea54ae17593599690654566d5ddfe646e0341f578049c4ede3fb53db0ac4183bb7f15dd04bb48a35d4a4082e94d192fd6ebd4752dc007fc95b933272b5f94f0417;
  Double 0xc85420e8df30b6737ffef338272cdb50f943e908e51140721c9b13290bb345133fe911c79ed93cb78985d7fd6367b973aa1c5e10e2d2472d3130d80ec91ed64213;
  Double 0x1e7de1b092eefdbcaaaf2ff5296637e1aa7d693509803a9a99ff0dd14cb15e06a507827068cbf6aaf5b36f51d754ff8784e6e222d17132fdefa4419e24b22207f66;
  Plus 15 0x1bb74028158fa8bb87a1939bbac447467d8b70da812061da38212cf63fe3aee70125ba9067788896e3f0a941d5feb64039d2c1bdd701682c450c94d754fba349aeb;
  Double 0x1efc064a49139d34317c9252d9ff0badee7c92708063ce3937b408440e17a3afd63167027e3978fd30aced8d40c0ec1ab6a844b6da365e8d84aa229b85ee2d03410;
  Double 0x14a31ea96c760f744e03094a07bbe90e8bd0539967870a4a3ea8132b652a7e4be5d1bdf1297538b118d376c1b1cd2b97007859f251d67bd65c3388dbc761cd24def;
  Double 0xb0c53962ac398aba494cfbf2f240e3284ce60d7b5b7c1b14601b17e874eb0550ac937bad47b3c2e875bb53245d72cdaac8a0ce098903f9260041194411ad70e0a1;
  Double 0x10fc0b578ad496155ce5357b5a38e5f2223594c21bfedbc11b9dd7d39a5a9d99da032555e7991b726498f61f72e41a49218474366ebfc94ea02d7bd0fa727fd6345;
  Double 0x143738eba12d20a6d675eb1c4f4d0f1ad2a2388511de09f5f6a8813c7ef60bfeb852f16639639eda8acc197e5fe31b159555493398aecd5e2461e419d98746d6b6a;
  Plus 15 0x8d2861fd65599e00e948edef12e102b20fbf4ca77c8264261615d3ba5d9d0e53b4550e5c55898053d845931014285a332c344f93f7043cbc7340f4b8340702bfb4;
  Double 0x5edc644a936897fd6c2458b368d786d82baebb0513839e82e01424dfc8b8eef228babbd4ba09830f4ea6d00a3f7fc565e8c6a2e69bcb0050c2075e7e5594ac060c;
  Double 0xcd09afbbfc7e38a3de2777647d37ed61f7b5022639e58dfeec29c96947453adf6e24c0a5f6e318d34a2b4e47ff5c57192bf3290d597b595a95aaa27742fe233bfa;
  Double 0xe1ad8bdb74c25e5273e796cac8bf3eaa4a585e3cf66a4fcf6a9e0f41a5e821017f2689d1326846a90f6accc600a11f2d60c727a5f9dc69ef8e0dcee9b184849d93;
  Double 0x1b0984256fe9ca551eff5fdae351435db0c653f5b2ea31e4107e1d6e3eb4a45b1587f490cce103d52c5b0d2a50566fcd2cfc98e707d42f14b16b134fe66f7c5162b;
  Double 0x1436dbfe83e25fdb3687ad34bb9a0c2cbdade22a957de24a43eca13dcc3eaf346f7f3cd5f4d24c2627dcdf56757b64a606599a6083c928696c1d7e607e1d13410e5;
  Plus 15 0x1df9e508dab7f64fbf41736fa4538d185d26115ba65fe123b68fc16639177688a0a40c833270fc165d4b703395ccce0bd89bfe2dfb4376bbf1d2bd148d705af22c2;
  Double 0x12580737534dfedc62c761b25142286b8055529556e772a781677818facd8a1910f14dde91a2b448daa190767d3ddee803b2fb140818438cb1258a1a7f630eb5472;
  Double 0x135889268ed3c193df87c2410e007960795d3204e82603a13edc43c91e671642e746f85acee792f0b7b69f372461fe310e5b1fbfb0207b40556c553fa361f844374;
  Double 0x15d97a00b22ff494219dd3c63ee2958e644389cdce9ff3f8d8d706c35b977ea0920810ab7315be0df8449001dc92a6ee59f450adef91a583f86751a2321b56883cc;
  Double 0x125bcb058962f86aecdc7aa75603cb17f55a087f93c78e7d1230e398a0bc2b38ac6727d4dd7c908691babf253e3700536c98f244a8d592c4e04b184c32b78b63c11;
  Double 0xc9100ece2dca97146cf7838f65136fd032680c94bb7ffdaaeaad522d3e5cd593fb2029a0ec6dcf6a2fed460b0238fae9fcb8149ab2150752e2c1abbc0c64e2b3d;
  Plus 15 0x86d670ce770814294cce2a6703705f11e9ccabde6405ed702f111d053e6748469b0264fab4f6ff2dea0b693839391e502daaf29e1d94c2f0dc0fce250f8d240831;
  Double 0x158059615773bddc4b6e2f07c214c0868269d8d60b92dbd1944a46ab244acdbea479322b048d3710bfad5f79f9543b41443045277dc59c8bebc5bfffb877d671ec2;
  Double 0x1bcdd10c4a62d97bf087f5ac3086ff39fee194a71a310482fdf4707be530f905196885552f538353b86faf74abe60626435a302b970bba9e6c36c159774c29b9edd;
  Double 0x1da2cc6dae04abaf8d9a6135d65e01591f2c2f360c053ee691fbabc0bc5544617da9ed887258399cfbc8d2f7504fc7e32a20d54e470ef3a4af0c44a865ae80f7158;
  Double 0x15e5e3cc11e24f89f8bef71c08a4bca9fb918eff011cb9deb0b512d23cd3af9b4820ae6b95c7bc05a7c038bec354d56f27bcfa067e5dc1b445fbd34d2dfb3b847b3;
  Double 0x4c7c27d458b06a57c5e6af04963d03e9b39cfb6bdc93bd0826bf496bf363f6edce8229b1bba428ffbf9d153639a331a22a6eb96fa66da21fed395711eee9bbcaa5;
  Plus 15 0x7458b096a9a537fc55a8541b4ece1b6ca99d010a39fcd49b1ac3364bfdb142a34ce0e6634735981321c6928f5f733923aa430f5b9d8c32a263ee298f5cb9bb2676;
  Double 0x1da62766b9626a46e0d7e773ab042609db892f931bcaa57e63efc7d6b7abca898c6df2a0848da090038aab9e18866269c2bd3a418c1257aea59bc1210efac90097d;
  Double 0x1b3cac52711f4bfa20919f0cc16fcff3f9423504fe8218b23e799df9e6d9cd20cf895e77ec6d0506007916d0a32718c5245b80a3c1060b61cbff101fdf5d85f4774;
  Double 0x1f9eb46f9116f979b40b9b191154727cd5e9082b25794ee77dea982c7327172d612358c8717fcd7e8d4ae523aca9a8be9f26da53c7a07aace0ba08fb69a5e8ba7ab;
  Double 0x1e1932554b3662f9cabb7c7b3340650b08c5f9d5c61037dc711c7a6a32b1a0bcfa8c4234a49c05b29f31d6590482f664f986ec7d4ace56ef8040043539bda1c369f;
  Double 0x12c093cfd95fa18a36e7b17c80cf631df2f2e0abd43604e637dd1802c1abd14181297bf44e0044194195dc59f0e665bf8b6ffa2125f2a87daabd175ab3e66c5332a;
  Plus 15 0x6d4fbdf49cd0389f186edf58b5e2547bb24771f6f4652ad1c1a2e3c574f89bd74b365eb517bbe4a75f76b13ca11041f543e03f11c1836658768c62698470f8a629;
  Double 0x157b0a4046ced03c02fe2a5a07561f2de96c2d6560fce01ce594537ef2275604b80fc59c2a212644f6ca1a1f4b65fc684897225c91c63c9d6fb5bccb4233eaca5d0;
  Double 0x14a49061e2cf0703660aa47d97db0b051058d68180ebba566aeadab64345f9840f76bdbb20387ab43312755d5b5ce55872e8dc0fd7ad4ea314e560b362a08db3099;
  Double 0x1c1167a83b45505c6d5d2f2424ba351b39454c6135b6bc067ee3a9f8d9f4b914c57b620e795d52343d06a7f0915cac075e8d689623706267625bc8857e05b89e7a7;
  Double 0x17e03949c3ad2afc8da4d2da55153c6ddc6359c1450e47f91f6d4abb10107709fd10740f09044487f500ef5d047b404a0516535756804ff0620a3945b84e7bf3a1e;
  Plus 6 0x2f35de62c00f92747fc8b3a4f572fe5b8fc180b787a7696b87f8a108728a49c9ed9d70f57973162f226f028172d3e2154febe645d2ea372ef417a9d6e4fda2585d;
  Double 0x1d4b63e09ca550f8daadaf7c117a5fc6bcb53a54942d67f1bac2b9d35650fcfeb618c3f539675b07d5ca85c23530b9c24351237ada8627f9884c88c262d6b01df85;
  Double 0xe2941f2d4b4d693d0ee31ddd63af27b04b003b3514fa587a1d4245b96ec079a42c456627d478f5dd54b4da67362e13b5837738d8b97cb2fe827f9fad95f1c09a91;
  Double 0x15d0a6cc1068ff7396ff431880f518797d318002d41d4840ddafeecaa7ba29e67a9aada21402bddaa4c758bac3cd4023cc39b8b68ad44af47026a44085eb4196bbd;
  Double 0xe37fc5508cd7f2def914f012fea696d1302cbeece458729690b61bb4959646164a47bea6c4f6578e3420926468fd9fafc96c02b3bfce1c748b44996140d0b20cd0;
  Double 0x10e104ae6784b5415ea81bbdb345eeba3af61123cba9147cf74dcc2980bfec2ad97b5fe0c1a627cc6e023a01aa8e111fc353efdf329ad52f68e41b05f7f333cd88b;
  Plus 2 0x70ac9d7e6aac8106393e4bf9dc1008eebccb53ad4d87d08982607452a111af4f3d49bae739d48b4b53922f6664bd4a573a2e9326bbbd23334839e79f252e305c59;
  Double 0x126e17ccd202f56fc57c568cfb9ff1583c8315a7a2afda072a3662bad01c4ff002bda09f3722f8774b87e82dfff0139346b7e166feb72063094a5b07dbe6fc59d6f;
  Double 0x1ff906b22e3f803f7b41efbac013339bef220d762c4d09a2cff66fea90e0ee013850d6a6687705400c3caf69b5fefccda1e92e5f71bbcea71553dee663bba206d14;
  Double 0x5a2752e6bbd20b40a0f478b5729721ee135b0323c4550955d27b4b57690f6b770993fae3181bfa01c0b77d051dc4b4eff87b7fd6a716e8d17fbf6a092ec8bb849f;
  Double 0xaa37ee91ad5dccc440c284a87849b852da1f26d53886d5df9441c9ee434f6fdf9451ad6d0516c4d2b8c8596c914fc291ae132f3779ddd06edc74b46e675dff22b2;
  Double 0x3769803539cb9edc20d990b8747b9e68d105851d4653b0697e568c3c77b4e760503dba2912d83d5bc91caecf1dfa6f3a2b60d8bbebf699dbb472f7b919d2435825;
  Plus 1 0x131bbcc2b79246695319682f2ae68e58b865fb201f80c54e4a39a140be35d631fab2c72aebe3c0cb6a6647ea4162af316c0fdc83a0e2f0ce1b1a81178e49809c823;
  Double 0x11e5790d246a04ca1d2427e0d4a1ad934426dadcbd24ea1c9ebe02fec92bff47e6bbc1af92ae0a28783ea2723b7ab498294a568b0fb08a963c7f612dfd12d014fad;
  Double 0x7a14d87d8422cdcfbe61911d03f02d3593b2b40143c0ab3ce73c2b68b86ec2184d472023f6289f00237a78136ef775bda694f2b75aee15edbe6922d6264b392a44;
  Double 0x7dea7820e9de74bbe5bf17bbe6f425de7ef896dd3f8f2fd89cfc7436ea5403006852f29442dba8126632433d90f0e48d437e969606c1e9b1f6eee1de2ae1a4b9e4;
  Double 0x1df69417a6af2ef292f55bd6fd1576a808a526613663fb5ed11b14ed8696f7f9b4c5827d9c89999c711674cb7bdd10d97f729b914c36e977a4604fc912e1f257cb6;
  Double 0x1c2b7e41331c87bbb45632f1e5a630de18586cb4e68d6e24f770d7d3f7c6abd5ea267dab3525b9a35fb5c6cba879097bdf39b18cfbf07322e68033b21f90a403dc4;
  Double 0x1ae526aa291dbe18db0f6cfe672697b1d45afc498b7fe418f4660c00050ec6b12dd6bba1d32f5780451af9fc12d44876a65dbf098c8777f282e8bea1f5ec28c267a;
  Double 0x15d3f50b9ca70805f9e91f9840c74c84087810612fc2c671d1e193bd5823b068b8bed434f5f0cb507c9601727ae26f64e89544a76e9b878b6eec0240824f9902aab;
  Double 0x11d5c87a237955b4a67a9d755a95536668db6b3db028618467f8254b28832296644e23a5604280835ad503b7e42f7dd345976368f2814ec971496a76694983a950e;
  Plus 6 0x1251d6b6f26dce4eb47eb7df6208a16a412f9a77fcfe42e7fd48a7d9c04a880b87ba535c50f027f799db64b8fa0a1ef5a3384dff8a79dced2a6c28daa6635da7788;
  Double 0x89567e753f94dd8ca05911adf592dcfc791a75e32c1aee66b89872ab81f52ff4a1f506c26822c593beaa211ea9a2cbbe9b732c9d95eb80108f810998843a653c8c;
  Double 0x2a352e7163b479a9e967adbe7856f6c99895df5421b881e9550d4c52c11b67731eae700cc7be42f23b7b17515a8b179bd75fddc8ec348172f1d2ed84a85d097d5b;
  Double 0xad4dea322e47392e3675c8e5580b3fabb4f5fbcf00320d788de76184afc65256192a1bafe9c0daf633ec2a1bb1a463bf251c9e028b4f27d687ea89837a3ec4f4df;
  Double 0x1592c7704a96f28e54def770d2b1adf290445cc2bd52b4f1f84b2a7093257d89087d9b53f6999aea20f9254f3be3e8ec46d4db67c3037e7470e6f2f1821697de6d7;
  Double 0x1d43f34fa0b39ef7613adfbdfcd0d602b6c7daebf631fc62a8dd12263fb4f26541aff805cbe9e0e882cfef2be18aff5c039b751a7a461a3cf134f8f7b67b9039904;
  Double 0x1738eff96157c73bbe6a3c9d5adff48756a02410637652def08fc37dfc4609ffb6945bbcd5876b2cc3fb7921824d45f9d663710f01ec428dd5b58bc59da767cfddb;
  Double 0x1764575d70c4624ae220eeb95e1d1a568a45eedd1451e841395dfb9e39c8aa94304a30ec3d5d71b65bff9a81a7852c2a92875d6dfe6ba68441e254509b0cef7b1cb;
  Double 0x9ff756938d62aebe22fe08a659cdb8732decd20d0019a809bf4ddf89362132993bc854cbd77390b7a29952c53b8c455abb70b85033db8bde5aa3cdf04ce9a0a82c;
  Plus 7 0x1f45544d598fdc2bdf17b8a5477bcf0299d8f837529f761e8a1d0eeada49c2dd78cfce5e62b1dd89a12c4fece330568500414822bb7baa1957b1c15c89a0af3d2ef;
  Double 0x3133e5af7fa9c81fcc5622e9ff824a8970224350a5684e51a843f151c28c39a77934cadfcd8e49e3f0a00de08da3c6983f77dec3dc746bb529928a0142507b827;
  Double 0xed4e2d40eabe6f9caded2afb89eb831e5abbab82d97211f67311eb3331550a5e7a022fefa6d3d7ebc36bcf383b81fedba1c0d72ea4ed5adc903bbab1281cdd65fd;
  Double 0x1da94388d9f8fbe35f528ae3778ca10b9389dcc41d0407f4315de171243ef787bb52d1017e951e27cb6e0e4c313f746c5cb1b2fca33595b79c1c6cd3bd1da2f3e41;
  Double 0x514895b12fc8fb9b90bc50cf243521c4962a33ea785f96cb535655cf4c4179f89a09d66a393ce9efa4834d749b63da6938efbbfb4f3909c14e772b4c4a27d87542;
  Double 0x16b0facf9f01f796cae15458c1286a164f769f0be5fe767b28e28c60b368e5c302aeb359a0dfec603afa1408ae1be2f350f1188a7d4dca27add35b39ef79d1c350b;
  Double 0x10074e034ac5385ab164c010536faeca10165dcb594d2df5598274d7d9a597113d5ba38cd5431151ec9e5f502f4810aa16eb12fc438669f46911c6fb87c2ffed147;
  Double 0x19bfa52c38a856da01dac84c8e82c3bb250cd92e0e035bacb479b557c6a4b8f8224e4d5c05ffb128290c322f2d45689038cfc7e2884bd2bfc8a6bf007cf3b396a22;
  Double 0x70ee768dff0f4e54ffcd6f44fc269ecd20e930315d11c0059e93bede0ad70c0a0e8c6d6e430c6f676979b0fa0e90ef99734335aa80452db0041846735adaa97da8;
  Double 0x19001920df01ab026be3285057fb505c39ce3ce36df7f01b917bc0a14a35af63280d2eb5812b25ba90a5781887c6fe7a8d1ba8a4187f15d1885279ea185bea49c4e;
  Double 0x805c04eb24ec224624e836379694b9ab6a598e6fc0d27e24f61fd7d506870eb5334f042f2737f946ea1f25b45b521804e42c43c8cedf2c10618ea0b24a62591857;
  Plus 14 0x77202a899a50cbe9f7cd4d3773ada68e8b22560e125519ae1249e73813eb1db70f5848322b3fc84e9daf2d0dc7300d0de882d18b2092a0e811bc528337c925483c;
  Double 0x4b7b44079e366733ae5d26a485fabcf7e7dd9e32a5f92b8812340fcb511baab8e435eefd235a27999a6185101a743d93dec730274298dbd42fb160da7093fb7410;
  Double 0x1f88355d4d3310950fd5ff0b223328505c4d33f3e47c80bbab41c161a6b7d7e66403503ab6187a62c3b0df609406f24d9e5873d0c63fa4142373685b5fc95632972;
  Double 0x19564ea041c5ab76a82f7f1d78caf73db9b4e23f729bd979ed0c349076f9861623637e63bedc786cba129524ef1a669aa08c0f23f430e6a7633b573ba10000fce08;
  Double 0xe6de14a9061793f4ef0a1f84e5d48865706b2ecf77e4e640fbb5936d3f72257bd4452a7797564d77efa4b441e2483d6fb51c1906ff105fa81eeea7596a7903aa5e;
  Double 0x14addf694ec55564ae825f64e96cb495d76a5447172f8383a9c44c089ac27ad3a6b22153e84764a33d9babd5f8224e21a2b3aa537ee8fbacba5a31a3ff4056f7b43;
  Plus 15 0x1da3b6ba9f02859e87473a5712e4c5e245b2c183a67d857c5c15a73be4b9b4bfec6c16f0448f49405f1e1a243c511f61da8b6b7d275a8336c62ee2015a702f9ded1;
  Double 0x8741c0d0ffcd1a4127ca0d461663aeab7bae63703e1cf85e773bbdec547e52c985482ad80a01e9e38f5adf51e17d84484dbab5fc2441b7024b6b0f468d9714c60;
  Double 0xd22f787fe27916d9e07c82acac92cf812b2b49815297a2e37d16ba50a7b8fa353f71991b5b7ae514fa13451a9562d810ad34fb0fc8430fece6ef857aeb29ca1ad2;
  Double 0x9da371f6c10046215be66a256cff6647b9c6050ce561ddc70e3fc8184e1979bfd80839cb1bbd34b898c3b8e3ba8a3078d6c9ac413877a7551a6425b73928ce4843;
  Double 0xc5dd0dafb7337c366c16453e7415cd17c994db5e0d66dc41f30299f4c021db848c19c9a24a420a4f945dc8fefad0043b19c581657021571198695c54177ac09711;
  Double 0x17d846cf3143139fe856b929873c51dfd58e31e96e5fc9ec3fdacd55f2e1f86a0ef8edcefa50a24c9f23fa3b8659dc1fb2fa8958ac495d07f4b2bdf5a3365f5ae5c;
  Double 0x1df6efe1fc99c925e69c9e48d79108c0a93e43251c857afa0d48ed5a6abcd8d530956e43b5bc2f5bbdddbf53aaefe9c46ca0c1297e94293cc56aff748368df90418;
  Double 0x1d0a3e226bbf9ac58fca65fa5c9ad8158b3e6dcdbb0db666ab0a4c2435d3bc1b73ba11bb2ec90eaadefd31aca1f6dfba891fe90ade014d98b31c9209fe3da85f7ac;
  Plus 11 0x20e1b7f8c0ac455dbac0a60cf4d7b78db0e5899ec3bd80e8e3769a1e5c5a0dd390b1d566e1e7f19137387656d0b7c8e5fb1898d4e95a00db89dd690d486aa7d3d7;
  Double 0x13401f542a6cb63daf896ab9df228f7974d6648e653dd6ba18e05995b26350e248a7fa703655a4c8a3d33fd5208baf008196c145cf1cd86d4403bda5c8fb0965076;
  Double 0x4440824ee6262703a01bff793491ef62e4b93a7e9e3d2a85eec2f623ab54eb9b880c6d72c513930c18904a2f2bf69ec2239b28c78bfbeb0907d8641ddd2f12fda;
  Double 0x4cba70934e0e1493a2a7812acd073378b1ac1b4eabeb13e2b5d6720a3ded7c33a10707507b1bfb0ad382fd734fc3ba9a1ad7613e16095937caaf7342c6c6cc7020;
  Double 0xd8d6821eb08436a415c79538a50aa1b9925253b5c3dfe680246c2f0a78fa692779b55540bb18f1feaa7097471c6a7499c133f382109f047e1b650924bf8d99286c;
  Double 0x13a7d1d9202d82185c024fa189188edd5d0da452343385b40e316251a4fbcb1b2e9c34aaed331aec2435f1f7336afdc80577e88ca74b8bfdeb92b477892254a2094;
  Plus 12 0xc1964e47c363c8547cacbc101057a1cdc56f9fc4861d7e2fbeff5a92f0eb71c5ab77d5547f165547aefd4e1b32e5005b7316231a8f89d16555c8337487839cdd48;
  Double 0x149d83b390ed8ce622a9d1c21131f951fc33962ca368676721a37a3d38046ca2d946d368c26c13732e5d29d26cf33dec0f7dff3ef22700ad087455d640fbdd7d88d;
  Double 0x1a6e065840d84c64b0210223b04a5ccf99301b9eeca385d3fa4d4afb56dcb88aa67fea2c74c4d15544546258d3b59d6a07b19519b2ef6602781a455209379359da;
  Double 0x124bb82fa2f0453201de61c3f15dc698d992186cda352247d4be5496f9db2341b22f1c9015939c1fcdb6c6f4fca2e4c8d47ae8afd72345b0af62662b1e4b464da09;
  Double 0x10df6f0712dc8659a16a1a793cd4b2f24a0ff065d9f5e404557befd1641929e0bd64fc2cfe16a7823466f954b24b46cba97c92cee41ab2c2bb250e69d1975c7734d;
  Double 0x1e74deccaa1dee6f55a618abd8ccd343e857adcd79d410bc82ff053169ea1854b457d01f10e9d468e9e9b7d330df88f50c932c67a2c59c1287ca20d97cef1b3d8a0;
  Double 0xf6d6a4c2ad75d3666bdc77293d41f5f1e70eebd4447734a02a0c7265e84d82d74cf830026b24b33b611c06c09c55b08cce67132769aa62db2b9d536b3bd472f0d9;
  Plus 12 0xbe79bf2d23c2875428815da13d8a65e49dfe85b83d3d5b2cc8237bb6f2f2d3dd94f939bd960e8ba4be20046bd6775c74a3fc5663da1d8ce016408382a36155b55e;
  Double 0x166e45cf456643becdd218a3e7200ff37b9bf1001538e8daaafac9966da75a87625f6d76c35b590101d2c9fa1ad54e960bfc3e31c9621c63aaf11f44e4027d775e1;
  Double 0x16232d0703cb197e1eca23d2e5ad77d5244f87edb1c47fa4ce2444c68de7ba5eb6c1446ffe01e780130c4d6139e07dcc1ed243bb6a368f161bf8a3c38b211372093;
  Double 0x160783c398b7d6fbaf4008507a5c87187d149a94ca48be87536da18d119c0fb75eb60d0f580f6a1bc330258325a6fad862f650a6be992fca6615d496c522f388b2f;
  Double 0x9e31ef810f1440d07b26533e186dbdacfef3b6e63a796bced7b0e6c2c5c68e98e8a1e981d6ee435c3a46868fe0ff55c6a71a7e29db130853bbbef033ad20200f19;
  Double 0x1b3f26b6d162b7a1eb70bf1ebc8b6c904d41e5e26d7086f279f27b89e52e78100f62880773021ad408e9be47721dc0f1f525ec4428376ad833461e1b3a44e52877a;
  Plus 10 0x8407cf10c4ffdf9a5f99a67e1517643363f95c057a66956ec2f11ef8457c813300bba8a06abaddfba28c427fefadcc33a08cbf391be6219146bc4ad26c10221921;
  Double 0x6550e2dd400730d0c5226004174ceb134ea9a92d9c55527fe767f5fab5e99f14123f9885633e029d9a46d13475f65797c70eccae940e1fe3f78cb3b2c38350a2a2;
  Double 0x1e860045e45b18c3e2891f85c76c55a6fac707b80ef0c9d9fcb35d61f1a2f8e5a889ad3899182ae6f3e773aa5afa95c602182c50b33f999f42caca9fabdff91ae51;
  Double 0x827d51f889df7f819faa26da805f61ebbce5be83bdc92afefab0e9bdd97eb9b8bd99a403ede0af90d2248323584cf5f93b361177765583f01518d6977e4e27be72;
  Double 0x13bcc1e5743c7de45a41c9a9ab2efd5a273621d2039c74a5f7a19885cae916328ef7ab86c5eb0955ffc9492294c83f53cb447c21f30f93025738a33250da8bfef5a;
  Double 0x59cb10466ddff16111e2315020c9c84e0435daf9a20169fb7edbf100e4eb6a99709e80fd0ef9e6808300bbf20ea0669a36352aa57a5801f34f376948c377b54b30;
  Plus 11 0x1cd05894885caf7dafea792966cfe93c1131f972a35b011e09ca2182033d64608849440bc707ce385d776a90810dcb882ef570a57b03f7961c6cb26536eec5080bd;
  Double 0x66f373e78bcd81fb0950cfb4f7645d531d85353ad4ffe9039071c118ce15e413a493194697059202038d4b3f423ab032995366f001c16ce3e6d84b6e16708f7999;
  Double 0x988ed7b7aa9630f8c025e106fda873ae787ccb5afbd6c495f90029887eef539422daa0b010f3ccc8dc160a6a7c7937c6fce44496581bc6deb469ae4357e0b45c2d;
  Double 0x1115cf11d5c22dd1b88ce70c80dc2f956dc6a2bab8406d2c8294d94ea80e95d61c2ae76e6177b45b717dd9ffc807745430e46839b65609c3fc36bd5610217246c6b;
  Double 0x1009314cc99e032dd3174f827f3500abbc919548d7ff16958105d68a9b0fe38118bfd12a5daec617ff098995cfe0c1a914629f0b5934d11336bc23de3793109bd8;
  Double 0x154433ea65ba77672a6fcd43aee4a79180de9e642f05f929ff5e677a28204deea3f59790b850c66ccf70b6c9b6fc4540c17fe677dd7dfc9b2bafce40d9a8eb2e6fa;
  Plus 15 0xb87b6790a16ecfdff188f23b1a14cea3904152cefbe4f28c32b0e3b9489a97a007c31ab0f84b1e79cc902c73ba6e5098f00245afb9e40d3d6cda1cd73489d5abcd;
  Double 0x10ff1963cb05d0d0ae5e9bd82d308c51d857d80798e65ef93a21443bedc469f989b680fd8ea23256741557de297eb9802f1db9223711fa64ef7e3e660bd51e6d9c2;
  Double 0x42d8a8a5e72571657feeebd6440e6d140ef5291d0c6cf6f1f74afd6513024f0b41f040cf2402dabd4ba86fbafb06e53edab54efb6efc6fd3475706452885faa469;
  Double 0x1c78a806cba05d42fbd345e626be428352d1f92e0bd7789b16916b96f3539738d2174839306373f5ac5a38521255c9631b0d8a41eae45d48d58d56d90a889dbffe5;
  Double 0x121b24043f413c4b392f48e5bf35ed8778c25bfca690ca39eaa335546744d72bd557994c23d2dfdba13bcf4d5eb2b372d68f7680c57ec366e9677b5ab8aba98c47f;
  Double 0x1d36fae8796d7c4898db8dfdff931fa9d374fb322c1fb9489640a457219067517d3fb43a296c411839d9212c703a745db3f63be6657502b1c5bad82cd2fd0d3c8f0;
  Plus 9 0x6b044a66532395e8ce9fc6ed3b3a854e6276e4b70d4cb42c9bef4dda19a8eadf2b53d9c05f5903351894da4aeef2cabc0bffe3758f040e32305c1cb584e09caec7;
  Double 0xf674f1723e0ce4edc00ebc2a329ba8bd199f9cc5e88e7f3988fa4ddf15ab3d03c613c08bb49d19cef580fef7261985a45be81a436df6e1442560faf19459397f69;
  Double 0x2a5cc588edf43c3cbde3a373c4feb81d38a7ac99e17dc93e370ea2ad57a3322358f1e9d46c4f8b602366661a4bade6fd3858014835ffde6c0f3c61690a1d963c80;
  Double 0x4d66a00fc8b09453ff4792ed017182bb0d1356da7deb6f94f319f37187a71eca0f15a73438f02ef2fb72c5e135cbdef24042e79c0aef1be0d1d9411acf8c88e9ec;
  Double 0xf0592e4c0be6c6bc83098b3de4362b7433e2c07de79f6ccdd7fea6efb209911b276b4fddd8d4f2f80ca15c262225202f0ba07213e97a7379e885d53dbb55085e91;
  Double 0x3a9499da28b197838ccc94568781a6cca2fe5654d6988cd5041ef97d06b05fa8c3efeb49c26c6449fc07fcfa52c3a7fb2caf1ef021575b91748da00618b35b686;
  Double 0xff0dff30c44104b16e781827191a26de6e12bd95bd08d5f29daf812bf172c4e4e981159d84b8e450705d4d6069a13a3fbba1a9e49cd14ee365f3182a162590d0f6;
  Double 0x180662b600c563d102a196f8a3f8783e4f8a1ce1aaf85ddc32d7a1e2dea7e169c1a9fa7955d7ea5761a7255923aa3a8b8f14d740ba42a6a84f55b1aad97799583e7;
  Double 0x6ffbdff89370b95d24bd18fc1e640b6a6fa903349404b6c67bd9ff09926b5932452ff61c865ef6148384edc1937eea073f6c08c0c142a3806a406917387e33ada6;
  Double 0x74eb1b6daeece0da9dc851ddf0c5e49ef9754f36e9c39c02b8b6000eccbf641dc411d4da567fd6e155ffe945745227655990ee42b68e963bb7c1ee3f77d9d6a802;
  Double 0x1abfde2ab3795c3968370bea19ef5d87dc410c6cc3dbc479ef7d004d6cacc8852c2991e079319a94ac1ce96f910144c092612c71580a5d17263877e6e1c36903488;
  Double 0x11d7ac9e1d54864285d68e1c1462fda14a78ff1c20c3de5f6777345d0796373bb8b12951b918acfccbd5131e883d4761fd437d08e35c8bccbaa7044f41cda69c5c5;
  Double 0x11fd0dee059a71e6b6234165370e0fb2e8d83ba2d3fc582956da144c407050b7cb29803b8286191023369b99603286e9f4e4dbd6ee081a1bc70e7b37a2ff916760b;
  Plus 2 0x4d4831e52a20f143514ad85d01c11371dccb7fa96770337ee038a31251ecbbc71d383a4d1742f137de8580bd957f702daa96595c0ed4fcbfcecaa0866ce4416ba0;
  Double 0x15a5c02da43213f5a5d75f3f7f27870e7937212d7bbb60731e49dbd5e685a6273c38b930115fc7ba31e68cb6e4ff787e16b932e825cda90b1512c1f0aa13e88b722;
  Double 0x96147ea58c9cde8681f49b623de28c4e2c0ad2e063aa375977de5fca96c193221d183dff28f3e12864da7655198cb018864e3c91a720d54cf584ac754d14364acd;
  Double 0x13f38bcbc976a094b30c93ccbc248332ef452bb01c5a5c51a60b2630c3b61681209e32bf17e38c1275883c6ab10ff958dd497074a52b07f3b88ea7e820c523cdab9;
  Double 0xcb6713a10d9caff952d6aa0c515d226e6277453ca7291b39e754a4789f15764761ca72a8d41df84dbda2a11e54136f6247c1fbc1c90b74067c841c02c3d3ae1924;
  Double 0x1af864b6af5784459cdba55853572cbb3993b97cde6d1e1d06e4864ae5aedfd315b7f475b9adcfabea2df0b65bd2d2ea1f940ca2e84ee9258a38f7d2d35d9fbb611;
  Double 0xbcb15d10e005516858a6f7da385000d708b492deadd224ea2ef6d011686025c3195e31c8cad51bbdb74f0872c996b972c86694ba64c4a855519613592db0e04ac3;
  Double 0x849ece51b798861a46c97a0742c057b6f6bea4e4ffaf7c472acc760c6ef546d7c87bda97f51bad707a1f51b13373a611feb6db54afd27fc676119c8f8fcc038db1;
  Plus 8 0xda6de9b55f39918bdb89a337f54b9dbff891fdcc54c42bd43220bdc6e48b51ba9cf3f2dc8532d26258be0464b874f7046c11711f2e789e08fc82d37a94f642d142;
  Double 0x481c2a7ce1cbced585304e73f2ee4b7adc817dfc9b69e961ef16104f443614a649721fbc3825ce8d42f44ddc8b1bf51af394924d38d4e6fccc189910b59e68cc24;
  Double 0x19c19d32a5f0e93db3c5eb30485da868d34967ddd5efb52d43d5394c7b62fd531f3a0724fc6eefb827e7e7e78ca9ef14cd28c962e4bfddb0a8684f09776d1e3c972;
  Double 0x4a897f91ecb807cc83829acdf3364e04d884fc086d1acb844d61c5320015959ee06588e74ed4c4975f560f6460e6352c8592780044e3ea7063ca35b6a623f26be3;
  Double 0x1169e422bc7d16e88a561ebdf417f664e6bd82d0bd6a66defe8ecd448f8cffd03e8be5b2ec923304729787b6ba26d6c20867cb3248548b6e4e78c524619f80a61a;
  Double 0x190a65aac08730839f95427d25094cf4aa637e34caf5155d9017363be96ef9e4b7cccd66b60ae681001a1c64903fc3063116a2d0b50ef121b9da333750a6ad3bdd6;
  Plus 14 0x118adc4afdd16407f07c0eb50814f6308dc0698d3bcdaeda5c2d48b4153ef5ed802c10a264489b91c52adf68b4b19c4808ef46812562cb758cd30f72babb38f214d;
  Double 0x10c197ccf9acac02cbf28dc55777025e326ccc3ce4eeee99a1155ebbcc00467c262220c8e5eb0300ec5377dc9ac57b8ae9756027c6211d6a64edeb1fe7ea63386f8;
  Double 0x19d5eb5c187b382b32eee7b364f09140f3f3ea4a74d936a28ded902b0ba5f3f77663c490d40f47b0bc5b00e627136b14dbb1f258563a68d4e111d22b0909adfa3a1;
  Plus 1 0x541e17593adea702330c4771781baf8653ab1fc5d91f38d1cd8584af1fc921772eac5738646b451d85be727bf501dc5db252f4b73fc77eef9d76048410b484996f;
  Double 0xb7f1cf035a68b7754f4cdfb136bd5adf3ebcf3f8ec336677c1a4e913bee06bf716bb61a2f8d575d13473f3a3580826290c54a80663f2bd7c22809dc347d2b9eb4f;
  Double 0x1bda709d9d5a5df29e865853ba43369dcea4178cec60c58775ca5b2c6f3d28f179696232eabf0a33f440e5fba66814272867a305a589c76558e9e2695d706bfda95;
  Double 0x1053e97875c1ffd0c67746af7ba314dcd9f8af3a2ede33a213774b579e1e89d3c6de205d49e70247d772ef8a56f690200f1697075f05d0746bf12fe901ba72f43cf;
  Double 0x191523238e21ee34ad52cd882c8cb69a8fd800ef7c66455a886d1bc334bbf5b7d47fa89668e60c3dfcecbdb1a67364da575a6fd636e1329014a831d9561cdccbecc;
  Double 0x3f046a834f25f8110b7035798bfb26a3de11edcb4a35a66e353d0aa907bb341ca19739fd32ee11b3416e1a9a84d2f805650f967fb0b5421a99a89ee30d336eb758;
  Double 0x13f32b207a2214d82fc1f56c4c104f327ceff0a0a5de966423f540234397418fbc03e6931a5b5dcb5b7db83b9db691c94577b9f62e78068f3ed8a854aac8954d23f;
  Double 0x138b9c2f5735b717c2b2c9068f3a47fe126b4252e4697dc7da85e08f9b7f10e6ba412f86c8585587ae5edfa888e1caca0f196db506f23d4469bd8c74704e8be3140;
  Double 0x439894319241ccecba7607f30290eb36402eb0133ea4c1051cdc7ccb9c6b4c093e89522eb25d58811633878d3591afb9e8337c638231a8ab86baef72c3e5aa7450;
  Double 0x10ba79980c23cc31dfe6df72ffee9b6702fffc1a093564ffa13218ad4e8aade990fa4b186a63450bab3523c505d32e51935dff51f7fc267dacdc0ad79e89b077c58;
  Plus 9 0x38a89e4e0289c493193e948cb1720088ec5415da32f1a4b4267525613498eeccac2c387787f4181021a526e40636e7f3bdd73fa98d4856a82c5e9e73d94ec7c600;
  Double 0x13250e3ed977914fa9e1b1f16788a9e6112a412a5fca5b9863352845a73930052eb5d8d89ffe733d74f6eedfdc27e072e5664c834de164c56067e342d46b32702b0;
  Double 0x2c51128b8d1946d0223ad5d5a69557b7f1d00a377fa58a1d8368cf23f5f594839f947485b0b523f8182e65dd4714df710c711d59e1a7a4a3966755790cae82cbe0;
  Double 0x3eda7c80ae595c72a85715179f4a957e5697147b159fa746f736cc37170dd867b49aa5def879c05563d482d04b26e90f772390c6c2ed5452b02c1401859a32671f;
  Double 0x737566d6fd1a3fb20ea9798e6ba4737b5564c393b842e4e27497f14a827bd6b8c542fcc8b9f492b440f31c193a5b9ad89603556bd2ab3826a779346812eaf829dd;
  Double 0xb4ecd8a4f8cefd172edb0daff8965dd0523138411d5b70c287f49c638758e83ea2f3122942d893621dba9312eaf6a4a1c31ed0bb153b87473e997d0101db1f86e6;
  Plus 4 0x1aaa55d22a524a0014dcc107e43e6af23845477d8f9ce3fbf2da812d2b7d376a8fb46e5252037d36ba7c08cfca09837580308c66a26b133c8600a7bca9351520343;
  Double 0xe66fb20fe0f8634bf5a74d19f17d7dd581f501cbb5b7f8ce6c00b4ad64140966974841fed01e97a9887ce014b572fbac690ef770d0d098ff4529fefa9af698f1c1;
  Double 0xbbc5269f9820dc27807fa12fc18bdb3276eac5c2ab0a5303bb5f40b22521cf679e510f36bb7f2eb24805a0d095688cad2108d2179ab6b9b207a812f8141d33e64e;
  Double 0x1ae9312d9bcb6e0ceb7228a534df6de200626bb712930644f3b031a52bfb47dda1e423bf516a5f24069cfe996af97a5c068177284c7b5949e9823b27869059260fa;
  Double 0x2d925cc09faddf76732718e0ab6be6526d42ecc96609a66d991b93da8cc2a206ba1b16e66c87993f60916e79c6d29b9208511be5c8e276bcb37baf0094ff1c7cca;
  Double 0x7eef476590bb77c99844dd771f534671472f045a63f596c9d2a7c99cd651042151ba30fad5e3c84b3baa094e3b8357ce0dde5e0a3f7a6d5cb01f003c12e82498fa;
  Double 0xc61110eb8dc7434b4ceb89ee1bbaa2c49af89e9ae8aeca000a885a95646609670b3ee17446177f9c9093eaa91d1abb9d369ee167db4de8f2b9b9bcbb66241c1afd;
  Plus 14 0x174794c34d75fbe5ae6e0b7abd18dc8993ede740f082baafc78977505aa17aeaecfa3f1c78c4937269b2713ccafe36b8b6b9e30b0e22580f3b0a43e871cb2260794;
  Double 0x1bb4d7dc991f2b929c69b0ce381474ae4dbdac4f3d30a57e3697ec13375d9f3691080c31460c96eb64fd76ee5a5be7addf54cf5688eec33fde1483a4685d83c5b34;
  Double 0x155f748f8baef5543e01f7f0b021c3daecbd1fcab4787bdcf919472440f68296c9a06fb0e9470042be0429671ca5cff0347add441525008fbea869cab84a10fc922;
  Double 0x18c3be245ee71b920bfbf6c2206989bd1c5109bb5dba4ddf59f9bb94cbe35ba24500afdd8e11e7c795574dc14a41fb2897ff74b6592f00dc537caa144b4361619cd;
  Double 0x49108536a48256ca497ff2438eb3f503e2597d7a299fe2b4de863b690ed5ea48d7df197c2afef48d915f0c7764648eaab4e262ce378e0bfb63ed4df4ad1de06376;
  Double 0xebb32a91f61f573c299ba9de66990ddeff0f2b37e99717fdf59c76f0b1f7a33c3f98a568b7009add79e0e0447918fe7024ab80fd893e08107c44da17324a802324;
  Double 0x1ad0dcf2f69a9928b521b62e03e660797f70610bfe9fe9174412c72ed5bad0b23744cf1359ba586c7334c81bba9512c682e8f230ddf896c4f4849128991a16c5242;
  Double 0x21490844c96dd7d13bd651ada7fced1c2ebb840098791402480f01553839864150355e2fdaac0e58f0e97754437438ef1554f7579a831a39eaed6efb29a89e2f7;
  Double 0xf692fce469fe4cffd499606eb5a89734d3d519949c99d3c6c7656d7ac9b90f568f8e69fedd52918a815160fd5be2259cb86d7b9b9d687d435dc0ef657a1f0a50a;
  Double 0xa5ba0e9606d3ddc3f3ccb820de7cd1473d3f9ab999e0a4004b363fc4e2175c52235149d7bf258a389554f88ce13fdc92ff3ba43dee6625c2c07e5a847a0bf0e671;
  Double 0x1f7cd284903acc00415d727ddc2d92028de6cee0e5a25412dcae94f8573bef9a556b2de7dba4d646c800e652bdd928458f6eb4cbf7c3e1f0b4e84a0ee0cc1ee3670;
  Double 0x11fabd13489541ff82f452a459964613e67eab287767efd0ea3a03b79b850a9ac9b036aad95d33e6a609a9e132ec8bda6499532cfdac115db97576ba779fa8820fa;
  Plus 14 0x391b3076a9c402059fa1060927d1212ce22f9c6159c686f429bfa149f890b6bb5d4739e8a595bf4465e2465c88601f383316e5ad7c158bbe170bdfcf8ffbe8de03;
  Double 0x12dea6952047779fa28370af8bb2451d6a7f094516a14e61fb618c192caa18f0aed264d9adf62aa0f394bc7e689a875ba5abd86b13433885acd39e5d2910017a85b;
  Double 0x8994d2b4eff759a1518713cc9615a36eb5804378d6015404a80e21d3d84bb4d2e364b5bc84bede9f1fb9eedb8ead943b15a14bd8a4445473c9da9f1074dbe6e0ef;
  Double 0xcbac4dcbc1a89a8cbf3f2e3031da5947456c9d88f34cc9ca238146fa0ae078bf3b171740804b359ffdecbe56977ab676cfbb457ee717193cebd34def45336fd9bd;
  Double 0x16e3db758dad72993e6a147ee4fdc806cd55e3e8f999d24f4cdf7de661ea6096306a6af51f4af10cfba679821d0bce1a91e176e5aa3934c2f0b99753998e425317;
  Double 0xb6e80a72dfbd72776d858e6d16dd9bb38208d5ccd57b78bdaa62bb05f0aa0588ecf492df23af2481d9ef9a1e7cd10abb0794f468b2c2d09425de2df000b16fc5b;
  Plus 13 0x781df0a3cc16845124cf2d611b94e47e50582495f0723e9a143c2d17e75b9c30324f1f81b2e61f96187960b6ae9873ba8449bf9a55f6e62b276a7ed5c07d3e2374;
  Double 0xa1b85a3787b670531dd3b6242e47fea293696f554325ef60f03148cf4583c09e08d09a4582b57c9f68de2bbf84ac3d4434b3ad9446b5a92f983bea986f451db641;
  Double 0x11ffb55049bca85e843fd849006341fcc1cc848953a80ce7d5862d297a44e730aae061235ee622f34c5ebe2fe609a01ab3b2ba38fedde1470f2edb4ee62ae6f171;
  Double 0x809e1122f37988a307f66d8dbd1ee78100b04467896502e15b6fb26e23dd6417e30814ac517910b42d9e90bf7f593134aa9734a1c30b4851c13e52ad9030c05ed9;
  Double 0x30ef1929c8e4804555e60c868f89718feb6130919e8e1c1cc2331209ae91804d41bc3291f67d60dd7bd01569f28a0eb9ea52e8297609612d358dc7f418cb9a1fef;
  Double 0xd34594371098f75a4247237608bb4c99f374dbc15559bd2db7db62a680677a8960b63316db51761c72c5cb19f6a371ce8d46f67f0f5900122653c07379b9e1e995;
  Double 0x1f7d4d744bd525e0de53f6b0426455c3f8494bf21ad3d0d2f9d3fa85b77c41e8f11b3495ce771542db00dd7752d64a10a5340aff3657c4399bb9af2e8f972f42e65;
  Plus 11 0x15e49ffe10d21e25cfb7bcc07a961723f8080c45a6481caaac3502ef6bfe66e39d83fd3f316c04ed04a0f8b58c6c13d1d92d4b23bd8623e84c838a91fb308cb4193;
  Double 0x16ce555f025000699bfa80d09c9f93e1615c79c131f3f4a53b38fc345a9363623755b85957f6d9fa734c872b31705880944ca14f8d4029a1a483f7dc1a9cdb9b97c;
  Double 0x14f4e54786d5db511f3a2913b4e67ee4a9ebcb8929d235612eec317594438c36ecb55018899344c35504a1aafef8776c6e565476e6e585dd723949426f89f1ed5fd;
  Double 0x113aac5a828b25201c14b8b558399aa2207e1ac051b443f90721eebd4d01ccbbcafafcc9a7fe1e0bcfca6589e1367ac39da7768852d374908a1399665bc2b473909;
  Double 0x163f74a26b00f9a18607876c6496e2e124337e66aa2f5ebfcb7fa69ada764c9fb03a4c120d29754024d133e3f70f7ccb8727b934528f6bf1ff41d718c5adda5cae0;
  Double 0xdaecf88b2b52f36c6b269313dacae1166e380da10919d84982745559cfe36f8c86338453cf1541695ed7b194bf752aca9063ae34805ab1153bc183a9fe00058c35;
  Double 0x723b4d0b027c20e32c7800ea5343585206027b6d955545363dddd87f61555e6495aa37c0a6d994b62b41377240a514e3d09b547ee41b4f6a94d761fd5747c5ec8d;
  Double 0x5f4d487c440337453dc5cc2e53aaac1c29c443c7d43f9ea3983133576625f8f3b9fd77ba862e3b74a7c9de080ec9e03cbaa3903bb6a076736222bbaa31ba52d201;
  Plus 9 0x193610e09beb0bcad58e81f32b17c077cfd78e8988ec34279ef4073e9b151ce88124c433841c5bea1d27d3511e00924a6b2cba46b2928840cbd511e7f13ddc813cb;
  Double 0xbde1f07a28291e7c61e8eb7aa15c217abcc9c80f980baf80144074fab55423d4b2704323dbbb9037ee6278b33ed9c1aea6e155cf81a720d3aaa7c89de2a2fc945f;
  Double 0x19a6c6b2416d561d4eb582cee78730a624688ba083f7ce8c1821d3a5017d70358e487ad8b8a48098bb251941071f44cf5841e8c1b26b6871d0220aca4d19bf67815;
  Double 0x343051580be4ae128d923dc27543fb7a8354b4c634a53da84fa05023a15bea1dedd822fa37a950e8c211b20200ee81ce0d6bb808bee15815e90d8775f31d4e119;
  Double 0x12ab0a9d85dee6ea052b53d49fcecf09b7b02431c0ada6a9fe15c6abc1161d207147bf3b906ca26f31c7cdf5c291aec0ffa8b6264116f48a2e7fb15cc262c660e59;
  Plus 3 0x15e0e1b3bfde1a9ee41f328afafcea73dd30c5d690a555b1fe35f4884787e3bbf45400558fc294b410d1c9005021914ea56a18cd1237a8e9b99d8f627557746a7a9;
  Double 0x1d7353bf1155c53f4a18672fdb53b72105372b668d59696afed03acca089ee8ef8de04368b8691a88e63e0ab5f9c0ccd2b412615a3cb565d34de28942eec4674bad;
  Double 0xcc817fa222142cb0a0efa6fa326ca0524c899382395bd79f18e5b463236f31533f0115ee1521f46fe2ae8b1342b6ab8069a0f9ff52787e295b25accf3c1ed7770d;
  Double 0x7ef30ada5867b0633e2ebc5f6aedbdc8145c8b38ac1ee99d8d16d90ec3caab08f57c6edfa2f6515c4eaac958df946b9d168c98c9e8b55f974dd0bb9ecbb85084a3;
  Double 0xcd0299a214d8b31cf4f5b6fb36ba9f3370a3271c92289df85276ed961c397e9e962e25015fca7c5ceaf31562c7e0fb73c4987dc2930e262ae0b016acbb5dc2b77b;
  Double 0x1280b379a6694b2a636507aa3b21c2a14b951b20f44a3dbe7839bdc89184e6bc8c127ad9730af0cee153cd4c79b12fe8f420addea0b2cc4e9e2d46ad3f9a827c29;
  Double 0x1dc65f32ab7cadac431351153f9bad1d0966e487dfe4423b7dda27c9000c2b0850f801e66f6c958e978adba3a98c8e0583adaaa48a57e86f8ad448f61142948bf97;
  Double 0xca52af37a2767e19b7da8507f7138fc7e6c48cb034fdb86cef4632b1f898228de6125a680c8c7c4d5eb24c8ce93bb27b7b8c591b3d62ff6b5f3e2efe017beb0abe;
  Double 0x1fc08f89a9efdf3df13199df242846be3038371eb4b0243bae6f11c6c30f30f8725a26a8af976bcf28af9840f0c19cdede4e1fcfe3fafec1e2c3ae884dcc511e4ef;
  Plus 8 0x1be4172e87b31b4dcdd3ce25e0f0adfb09c946d54f9117c6ceba5fc4de19bd2b1c107856656ade597c90070a4ebc7944bce0e8f11b328adcf32c1218a62c0e86b95;
  Double 0x1e98ece9ae140a93701f149e5f066d57d8d8eb08137d23a401c6e156e4937a0b88525f6729e97d3727752a2270bab9982b66edc1466d33a588f6918e2293e5d6d82;
  Double 0x8b63e59eeba9cdb8a5bdc5cde0615fd2e6beb147e97949d037c57ad98e41794e5f4cc5c1b0f5271f1ccb4f24b2c84735c3efee451e37a6829923d1a96f093b8f2b;
  Double 0xa6f9782cf65a60926911b407e7b8ba488e69f7bb9ec3718a1e3b0d40d0ed2e099fa1a1261d96c684e26c8f3b7f18aaafd1341f923f95b7df3d83aaf57db418ecb5;
  Double 0xce3904c8864c63fc21db89b685e13f30559f1eb76d8e4419b799daf9581a2a0373bd984fb78bd169c35f5c59e07eb6eb167192489975223d6ca99bdb33a9de3049;
  Double 0x250fa651a7873c4dfde042991da30cccec57ac692796c91c3d370934632c4796312e883ac31376cdafd2f572e1e9724f49696d4451f066a88644baeddc37d37e2a;
  Double 0x1c2a9463adaa6970d1f37641b9c356d8f99e01a874a5a8be794f8d20a1f6a27874dbbf59bc55d0981e88f531ea54445748cf62aabb7078c4fb74659f17b80b36c57;
  Double 0x16bce70b9f150dacde7b6862e68370cb4d30c5b5154a5370875e60e3d596cd5e47c5a1a4b1c56fc0cb2c51208b6a1c3ac339ea99c58656a2b565c8482e8a7c7e31f;
  Plus 12 0x5197e82907f883d88c82a9e4016d8c7029341d3e440e105a6e0ee10395ee508d3d801857bb4e4c16ad307f1d10710bab02ccaf5d1beb00431059d359c48c0a0cef;
  Double 0xa2d948c08fc72fc93680962c37d73a4b83bccb6d65d9a96e102afb1a5bbad66d26edb27d2771c3ff4269df5550b469ecbda455083c73d55d92ca158d0b36c12030;
  Double 0x76a51092cb20b514536ea6561d72f977dfcd7003a427b79ea49152a396c5641d1007520bc5621836c9ad2f8d0d99889df286445cbb8271967a8c22a4408dce0787;
  Plus 1 0x1ed1ca2b40e97f818444c9ae7fa7d62c1adfce72936db018a4efa0a91a9be814f1ec4cc2f93d187b37985ffe6bca3bcc05690866c599bc0c02ab918989441f435e1;
  Double 0x17b79a2f1a286dcf060978fc72ec04ec00408af522b337a871700bd0d971eb96fc1e69485703a12a4efbcdb711382f3786c914aa3a1b8d00b24f2d40f95c3fc9563;
  Double 0x14fb61a7ad6affabafe2aa38e16e0144d4b7316660d82de57bb8af82639b89c51a1f7df20ff9934fc7f4dc6078c6a4bb559dd9468ff2d6eb426906334542be9bf7b;
  Double 0xee73c3d0c5e2f5fb87b8e53ed3c3e52fe4de29e6eb63cb7b612d74161dd3bd917f68fdee9e7c4482ccb7868f7018f9bbd49d28f25db5a37eef3adc588a2449f74f;
  Double 0xf29b2875025f3b6a781a73d17eb95a0e977c7296cf67b0e6a126f2dd96ff2feb7fa385ece0bbae6c9811cecab6f0b4fcf10886f997c3f0e0e35c77f5bc6ea47fad;
  Double 0x1c7530668cb21ff522840734c6309695b40bd32efef252f340e1d1c0e7581e5a87800e9098a392144f87cc0d22fbcdbabe784f9800e1f0463ef33d63c6eecb0a5ba;
  Double 0x11036a6349b2c4aaa6c57e31e2e14011849ef3e68128e04d77575960f3f5f29954061d675323b5cc74ac497e2fdd8c0f335f57b41f8e3c0f8374b9f1f462ea244bb;
  Double 0x1afb24db78f1ff2015addae4e58eabc17cb90348a76a6faff1f47a3a908cf52d8bd00d9ea87aaf2c6f0ced54e0635b262babbaa23a74271101c75b439acdecb48ae;
  Double 0x1e8714d680017cf129e4bb6b3568b658a3e8af2ec023a4c4a55bff4814240c51b8a5ce4e3327498b0ccfa0039f6b4b8446efa06ee4ea5692b1b4a414cf2c9af2bd0;
  Plus 8 0x186f27dc74d4a5546d5788da12f6211b8a34c28c59551886f1d8efed68a80897ee74d6b109f51ecec4735b741e972d9357a84fb6a330b0cb2ac3bb0c3cee6f1dcb7;
  Double 0x1822d8d77a9d253418f2c0f31b2e912f7f97d021bcd37476463042ee39fce0bd3524e9574329515ab94e9ed7cfe31f742122d16ca07a992b17a6c7ad80f1820b2cc;
  Double 0x198084c23df0ad4dfc4f73f24c5a4a2674363e3a805a6b6bd6e3faf70bd3c1be6a5bc499ef7cc7db31e47d345aa74d7a4665f2538560be2c4aeb6434d356f1831d3;
  Double 0x12b18886e02f3a08a1da911ec1dcdeb0b965f127aebe2db482610a9908cb25888683da5064d0e8b4b25de78cb02873a8478a6c5b7cabcc9beb5eed923305d16a7bd;
  Double 0x974fe34cfcf63880b417cd4b0a8a73e744183d5e12d7c25993a35b2327feda4e9d289fe87ac368dbb5e574ce7e5bcb963aa018b1c6656e538a157743cd5898e95c;
  Double 0xb321298f1aa003740e6e0614d1238ebf52f1fe8be2c0dfc6d177740c5f05d2e310042b3d0cff4f9c9bedffe0752177e31d99fdc9f4ae8e425e1a3a2dbe1c56a710;
  Plus 14 0xceba9d7c49ce32080c18d3dd7dd801f2da2e5ee22d03b5ee9352d72db791c31307c87dcf8d0d86fb0404c424b350069d5fcefdcadfdcdbb63fb7e8f206cc8eeef4;
  Double 0xd2263853afcf58ffb8cb56f8d35fa88a38651dbaaf04983b30e3bfec9a2c42e9f666eee04ee8cf8d32bdf36bb795238f000ecabec49f23d55054a80fc5af2d8077;
  Double 0x100287265f840c1350c23def941ff5e6e53ca7a165ff01def328b89b93e0751ca889cbdf56d1e4217832d78a44d90bf04d2e17593f74447fc458903b6454c7098f1;
  Double 0x14a7a95bcad8e11c5770e99bbfe5d07ed68462a9b7019e1d4f43b1d4cc53fb471906556167cdcb8246e3f240ea5cd6d2edc7fc90c75299257d4efaedb0b2a9d7e04;
  Double 0x1e18cc20ee2d85422e1f9903169d07cb424cf844e6fec44f3eab9ba70c26009908542219ebed90ed86b2572df8fb7b16438023ac77e5fb500d1d2c359c2601f76fa;
  Double 0xaadc0bef69b7287b4b3f2b3ed36db82c20cd499779d489bddad8d901e7bebf4501317eac6c5c069c42fd538855232a545b30fc026c5dd5ec5189488a3fbc8dc32d;
  Double 0x106ceed1e1da0bc86a9d0e563fb0c62afdf965dac03fc415533c658accbf014978803053b987e5af67a7f0fc69ca52471a26653a1a8c8ae5c8929b979bc57106cb6;
  Plus 14 0x511e75f6a218dcf4497b2f9f681bc195d2addddff6a42f63dc0168029260b19ced6b3d58a32d12efda7ff34c5162788299ad69d200f52d56a6657ce80a6fed237;
  Double 0xc4c262ccb164b237681c5ed5b9d3cc546af439cf774a37bfa7f6c87ea030c0a0dbec071bdac963f1cd1ed78d216c2dc81a58aa7efb4f74c9e52eaba724ef9d238;
  Double 0xebd3543f488cff1aa8d07b998bd68b99a7b9cb6c10faf6c9266c60c661c47c03cc7ab245a7c78c0c8a91c2e6f50912f605d8d5e874d0ebcd894ee8f4d4e50d3113;
  Double 0x10534fd0419362da484b9b0e0dea523da22923ed9f88504e43a6660ef3b7f89e97ae22c8656c09c85958c3d48ac75f14b52584db2d86163c4101458b11acc580bf2;
  Double 0x19c9c6b9bc756943992e480972297b85fe946b9fcde3a466d2d5d9ac55a0f69e2be70fc8bf6cdc24b0c31304d905b01a52fffb2cc1987ba3005243e9342bb9c63ff;
  Double 0xcaf825b21bcd7925226b599bf186ac1e28497248653aa2882414c1e3bf433e7e6a81099529c81214bc97f627e8af56e597fd0e01ce4b026eb61fe01246e44a2176;
  Double 0xe08209995022598ed67f236b7710008e1fc503bf2544031141ca0cb06ea7e6be87082f5a05ee98b6f9fad9d4f0d2184dbfc430e69294c86be072f366c64259f987;
  Plus 14 0x48a0468d663d8ea8ef8f2f6c5aaec33504f25c7764f8fa7506914271da92c67ec6367c14368a12da2b1f6928dd43671ba8306400229613e148c52c75da743e2b8c;
  Double 0x13df23541f7fa432a8dadebccc824e42ffa1d498393aa7363e5b5543b2cf35c8b2e4514b53ccde7a9e583b04a4a1cd19845dc65ab478fa9817cce2c3fcfd61be71;
  Double 0xed11051dc1dbde8a3d1d31ff2797b9e6b4f1cdad5578c664693b394db01f2d2832c3904d9fae03177ed440305f1801d626c9e18a45d770c09760f36512e6085a3c;
  Double 0xfb96aaac65436a2ead100315648490d6838eeffe0127b87aae6fecace7248a51120382940f560bf15c9e4638179a52cacabd3ccbf463a34f70802aa3fcf25327f8;
  Double 0x85708c1d28888ab5374e0cc2bbd213b8c3608876d699e8bcad64c19acffeb546da8d0e3ba10f252037d45edd84a496f0b2b34885bf8dd0886f5c62ea26d92a2666;
  Plus 5 0x1e5d039ea370a462efd6793a46a85d2f11afa548d5f5fed58b956d21497bdb9f384701676794a7f695fcd3b46b4c388cbada20ca63f8e3481350e04d08e34efbf41;
  Double 0x1d4e660ce27bdcef835105c38bef5345ee0b29076cd632f575c03721387adf8941839cf576e214b6370be4687e03558bc55ae18683a487784eaa6d5ecc82f789392;
  Double 0x1ed60780a99979c0be6183c51f38b6613cf940831283a1e880ad23f791abbff449519a79b4166ffe86cb7a1ed01a524c850f5ed9cddfc28ba29332aa6b5019e0901;
  Double 0xa7f57e5443333488b3d74eddf58250eb04805d89b276b8ca5438efa7f4720dea33522229c760f4f0b9bf3261c40f31dc6284229134a7b787249342b10cdc9f6d6b;
  Double 0x1046b621d42e5b9d42128dcfdb5b6b1d884105d088168f4b69cc8605c7bd48a92b20a359dae0fe94f7a7124cd69231a15a736aceafeda3b624fe06f6debd1a91ae0;
  Double 0x90ec94145ff82ce1a2ad828fb5d1da9a396d29a5921d3e022e97d542fb8748dc9957d61f1f6e8e9d9805012ff5e6bee0eb96cfe8e86903500b937a50ff70f67abb;
  Double 0x1cd0befeeb7356a1ec110cd93c2cb6d1556085ee44306b432ab3867298952a74e72b44727f8095930f9d4087467d5b3e3283e4a4d9a8bab0aa61f77f79263f0efd9;
  Plus 15 0x1130e645c8f3754fd37b5ff648a160c055d3eaa5af96a7b1cbb5ae3df23c606542638f096c1fb2bfd247cf03a40c48a3fcabe49eebc4d0a08eab66f13286854fa49;
  Double 0x115c2b2db3aa07d6865d52be2d3410fd1d4e63df2ac3ab369cd1636afe4f78f2f99c8c95daa155bd5c4604cc014ee0948d77f98a816dbfde4af6e397a039524f351;
  Double 0x6bbb7cff3d3b5c829cf9b918c059ef6e1225885d99f1d9f4197a0743e52a9cf405909f8b56499618376945812a49c60870b8e571f6171b2a15f56d7c5e3e618b53;
  Double 0x16c0ced5e250d6ff72abb3538e9f4cb8d1417115d087ef2a956308b585f11394849fe89752777badc2fc1791c85e57362ff12fdf24b27cc9de4dab37b6cc5c27ad1;
  Double 0x15d395c242f5e23a097d9898b5a74f101efc810ac94abcbbaa0786738b5da11b77a6c64eaf0ff3aed0c2e8480e1ee374905f58c4962692d308ddad8fbd3ea26d950;
  Double 0xa9bb561bb91a80bbade506bb5c39ef3cd486524c3c3d8c38e515c613c82b21c9e89b2494432c2131b2e810aad5715f1a0bb024307071e0f6f0ae497fa3ba8c082;
  Double 0x1d87512041d6faaad2ca65e5e5d725a5991f9a5d1ea5b404837ebba3bbfa68af480f5377ebcdc8db11b3853cddd2261f97a9350c0272a87aa8e04d936e8b6a3f8a6;
  Plus 13 0x139c5cf6b0b8eae3b66ecb8a159a37af3079b106b74db46a30393a14760541c3b38042341c15b08ba8b2970944abcdaacfb0f810efad3f23d83114392182846709b;
  Double 0xcbacf496a998f997f950b27f313b89387c7df0652d4fd07d151e3700a8071de080e4c235dc599f3bbe089234817c6803dc5935ab3025948cc926127fb176b1fb8e;
  Double 0x11aa1782d078377b41ddbc049b53f03fc4b488527c91c93f78e25845c1a47068aceb1aa1c170f622bb6fe62e62b84c0a0fdd6314c64a6a9fd24da46916076c80eee;
  Double 0x1a2cc8141cc5574c127e802b1ec0be4011cf83670388650ec5d91d0bc450e35f3cef78f132ea752778b7c1adb9552ad04f6ea48ca022fd5eb98be0c7517cf300fa9;
  Double 0xa1c76711346e99e799aa7d0552d2bad677d8a08528d1ad5d35e734c31ca0672f3b2a884084fe8db3ac907f4daa331502499be46ed2a5c959a828afac857232276d;
  Double 0x1ad27a0e38c225f6db6ea199fac9bd8be4126dcebb42721c85e8aa053708852f9a779b61d3a791aba85e20cb057aba8f764948ed886fe55d5654772afc2d25874a9;
  Plus 8 0x109a06d7451b8e7a8db51fe806a273692fbb7f4e70bd9f2d6b93c2e983a19841f40dec59f0ffb6c1f51d369b09cd933e357baa475fedfe0ce12a112187fef808f17;
  Double 0x16eae1fb5c331bc6d4b3281beb3268d56daeeaf9967a80ef7c83981377a133c6ce6d1bfbe12b06c1bd731a79df505b3dc2201083c7a69a263ca3c119d6d81aaadaa;
  Double 0xed90f1fc54a2e652a4908e2077270cc8f5f5583f62711ecf35a0eab6510e9b3fa74757a862ed8e63fdb411c0edcd97120ed77e51850dff338f9ecb1e5088e052e9;
  Double 0xd31a2dbd290092a0423adf418038f08a269ee0d7c49eb0488dfa2f6c2b20c235dd384c27629ff689afdc729779a1beb1956c151886c851af3c1e423c5fed1586fd;
  Double 0x1d8858e18007278de96b32700e7b7e3534fa3dd0d71f398954fcbc4fe7272961bccb848cf7a6df32f375f23ecc509bfcd165ce5f5cb7801f56bafe7320e8fbcb902;
  Double 0x1a9af64c218df749645763e51fbd33e97509a8e8de17c6aea5824e08bebb4e3ebe1db193f6cebe4ba2f1f03721d06e2370258bb58dab0243153379e54aa8116bd98;
  Plus 14 0x1ea2321cb3e967335cf76cb126e7a063fc3286de6fb82f1c1ea6b8f29fc9849e97da322e998f4051ac5caf3fb836eea3b48bc3fcfc3fac2d64168e4228b50ce76e7;
  Double 0xc1c573c0f019991ad61b9027db980bbbf98c6047bcc5f44e00fe1c39cd039239aba48d856b4d89e0984f7bffa9e893253cc3330cb71640085dd8312dafc6a4de5a;
  Double 0x1ac3a446ac5b167227ee08783787c9aed47e5acf2d550903129939c83c47ac6406904d02eb2bf3a0ad29dbbe3af1886fb5d2922681581868c5369b486cc9d7c98c3;
  Double 0x16c5e35c16b789a19ec695a0aec5c75af67b4c7668ce2df7e2e53d4359a8fa55d101f9cb1cffcb3d9e97d699d7db920e92d578a4faad50a5134eaddb1f8181d8d8e;
  Double 0x1b2a0e20b1d8fa52d27ddaeb8ef303c86e27efc0b114a860593e042b1335db132fb47b08445f4456275b38c03c89b01aaeaa7e711243dc2a12af13f277ff4875577;
  Double 0x7c35c3c5029dfc137705f90ee361e365276d6bc04fc75ef90713ce71c5d5571822fe498cd4cb49200ce8747066affe5aae0dfdeccf6cc809cb972ba7e0ca9819dc;
  Double 0x1d0d77185dec171a94f336037bfe5d3867c85b69113d8402db56d541c62f7a4c61f11ec1dfe9d2e4a55b5f2300f32c76527707579043fcd41529ec29a22b1f52a9e;
  Double 0x5a70f8482b1b808705c4650ea5f0ec1bfb7bb52ecf8b222c56f7184e6dbd3e9412ba799ee890451c643cc80863995837ca3dd7abc70522f153a3b555828601b2f2;
  Plus 8 0x157200473390785649108c5f3435bb007e7106a8a07278129910d6f89fea0e1696c75e5c0c333b885812be9e96224440badf20c5f88e960d4af0575352f2fedbab4;
  Double 0x15834af480eb2c0f6f4dc65842f5a60060b64c03e1ab2ea814ae5db309e1163af08c6a0bc614e094f1e03d3e9133bf17188cbf27e4b8494e4d5ce20b0d6a57af2fa;
  Double 0x1657b45272d50901de1f785048ecd48f54c7ae7df88edbca4bb1e3392ea9d1b45642564178cf268ccddf3dc656c2745b32aaa2c2ddf6d82ee35c7507a6424c144a3;
  Double 0x97677df37e61498224c2f8e47464e8d0d2fef9bc1f3f956fee0d6f4b526dae3057ca3236f3d29c89b779489478a1041c0dccf2bfedc21424e7c78308f88bd7f131;
  Double 0x60c1da8c54040430cf617fb900a26adf40bb6130199f5ad8bff855c0b14d26d903ab6b89af290d6b1cc5a788225755498461c8a343b03d8217d5f74b974d87cc93;
  Double 0x160f3fe9156039d680253d7a4aa5821ef73305936d7127db292f458b6538763582e635e81ec23e2a436947f44e132ffee9d393787f0cd2c2141b77d47e6a5d61744;
  Plus 3 0x2baf769cae1a8e3e63968d8cd8a52479793a3d65e17260605a978aea4b211672adceb72f009dca19cb71305d7e7e0d0fe5088248557a1bf81a02741c22def37800;
  Double 0x1ccbf8b380e63d821cf07e659e05e743a534760ca3907275ebae044154dda2225d7f67248db15747cda06a006ebf275baf888c199529b27f7c29c6a3698ca86d679;
  Double 0x6e118e1ce98d81e8aabf1f99ca5f3b8d20b270bfb891d743eeb9bcd034d22abe17aac320d49800c57f3c3106185490f5a8d5a2669f0269edd9079fe0e0f9700bd8;
  Double 0x124a96b741b61ec362206e8778cd1824075233a1a14bf20b195bfc0e0d7144022d177f048a5c6228c7f7aefb2b049f6b97eb5688bf1c4159c074920d3d7b2743c32;
  Double 0xa1b8d9f6ea8cc769fb029a3431734438dcbb7734bc25793199356cfd35f1bafb4014e575c53fd8bb74a5825c3eac21a79f85616131595888b4f0752c509e43e85;
  Double 0xa04cc019f7bdc24d37390040f933f5f450f21b5cdbe5d2f7c93b091e93191110389405a87445e48a3e8a7c7eda6ea7363f1855fe09b3579a9a4dc45607a31a4512;
  Double 0xe515cef762c2f5420959ea914e9a90393f0ab4d72f01f6d398be91ed13058e658193a44af5b5b0d34d6d083c34c543beeba3db5aef3c2b31ebd85f00cbf156c33a;
  Double 0x1eb383b25596773af38b4fb3dfe7850f95900950f4d4d9554cb38122d8663b81c1897589905f8849ac67e2822c91b8eef4a4fa394517796325e5e0a3d510ff344a;
  Double 0x125b7a4e31bdfe130fbe34541f52aca6a3c074af86cb6a3550f08e373c1d0f3e38223427190cd99da521dac2c1c24aa0960c72ccd01f182d4fdf0066fab579582e7;
  Double 0xec177cbd300a983de234dc2fd61b2e999645a3012f39d6fbeb1cdc92a4140b3e489f9000a50aee8762228eaa6c31ac2551572e7bd0b9acc7e6c1f117e71e773b80;
  Plus 12 0x13411583fededbf5da4313b638b21aadd5172817766cb70c3d7cd254e27eaee86af3fbb425226d9c1503fc11fddb19a761dbb0778760a0718743afa15c21ef88115;
  Double 0xfc2256e4a89bb59fe393203464c9d0e10800294e1d43b7c7b98dc9c402e2ac230e28a36049ac9f2ca7e2a6846e73f6cb4c9ad1490fd793e119c4d2ffa71a8e4a02;
  Double 0xd271910b5e99a4630fd4264decb1464fd96c54a7d132dc0110243dc609a5866cd7f23094f154e433a256a2e593cd0f14cb8b2e7ef8974b145b82b06b983b2dac50;
  Double 0x6cbafb899e1d3aa5eccb4bb7d38ba268513ab51a908f414bd7842361ac9abf6b539c3ee28ea917203ca08a42c40cc4dd8a962f975cbe7d513bad0c681cf5668256;
  Double 0x164dbbce51a915117083f16d7a78af60eca9d70fb692207a4c1d93d817d5ebbc128c472bd785bc53d7217d9afa48aad4464a8513a9180cf10a588db4f5523cad3b;
  Double 0x10b1600331ac547be39e39a2f04b350ad617ac95fa9727abd289b33e80cfd87721507bf1617fba740895593e57c0c45140017bb8bf0dec42b4424299c9341cd6d9e;
  Double 0x17d4be298c416d9ed57eb6fcf9f7943dc201145b882988b80efbfe60d788adfb32ff521cacc69ec9a696efaa7a504abedb6ee6b0f2d0d8be1afa7347aeb1b1e73d2;
  Double 0x29204b31e8eab0e914fa0e8b6fe71324fca280af49f75ffb45b7dcde5b8ef81b6e0ca45e7bc83cc99ea2158d4a892c5632208f783370a671d091dd6fc41562af5c;
  Plus 0 0x4316ac1ee45376f3f9e057ebf5a486f38bae80c9c8f4ad421bccfb39819685707dacf9ad4ee3955ca9a4a8edc196862d9bf578f30ab67fdbdc96f9692539fb36cc;
  Double 0xa4c4b282c536aa55daa224bfc2f4034d9ad26e1921af00f3ccf601afe63b1c9e591b5cf3a478f0eb5b7e09fe91f23a4b6d0055f3cba6d81d01277db4b6fe037349;
  Double 0x1488cb55374eeeb2f3fd43113cbd57461141d977d6d91a9f60bbfbc713684e1a765e5ecef0c92b1d013f32c8f45da355ce1acc8490f307f0b0fea6c5e332edd00f5;
  Double 0x1e21d551d6c170ae91cc0e39f83313931286bd41b8506175430c28844eb444f3baf60dba6b3c28174b5d4a3fb04c6236257eb1351c09644fe0aa5d9e5eab738154].
Lemma chain_p521 : reaches (p P521) (a P521) (gx P521) (gy P521) red_p521
  6864797660130609714981900799081393217269435300143305409394463459185543183397655394245057746333217197532963996371363321113864768612440380340372808892707005449 two_p521 odd_p521 15 moves_p521 = true.
Proof. vm_compute. reflexivity. Qed.
Lemma order_p521 : multiple P521 (Pos.to_nat 6864797660130609714981900799081393217269435300143305409394463459185543183397655394245057746333217197532963996371363321113864768612440380340372808892707005449) (G P521) = Infinity.
Proof. exact (reaches_order P521 P521_ok red_p521 red_p521_ok P521_G _ _ _ _ _ chain_p521). Qed.
