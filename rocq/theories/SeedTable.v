(** * The first 2520 random numbers, as literals

    Checked against the generator of StdRng.v, so that later files need not run
    it. *)

From Coq Require Import List NArith Lia PeanoNat.
From Verif Require Import StdRng.
Import ListNotations.
Local Open Scope nat_scope.

Definition draws : list (list N) := [
 [0x86564cd8c46e9387; 0xd59c65ee99cb378f; 0x9dbdf0d230ec7f11; 0x93ef662132323635; 0xe651e1d6545c9c95; 0xf97c3cff91218af; 0xc304c742bc6a1db9; 0x5d4970244654e9fb];
 [0x1471cfad8a8cee72; 0xb55fca56f6a39907; 0x94a9a7c7a52ddf3; 0xa798725cb95b166a; 0x7459f7b176aa0a4c; 0x278d2a94d7a86692; 0xb4d44d10b4b7aff3; 0x1851b62533b2e181];
 [0xa63dbb95a02b45a0; 0xb05f764fda9c6b86; 0xe250c94b6c8cbb1; 0xcee79932b127ab0f; 0x28635679762fae77; 0xcc08afbe2553924c; 0xa55e7b02ac304057; 0x19d98ef51bb05256];
 [0xb6a6fb893757f024; 0x6da408f472c8987; 0xf73046b68b1b6d7a; 0xf7acc5921a364083; 0x1b8388901c36e38c; 0xb016988f8f634639; 0x5d9c329b4ca21719; 0xc3967b8a0c1fef4e];
 [0x52d2760029bb0f70; 0xe1c69ec4ab968a49; 0xce8a5a281c336af4; 0x46efe1ec3a7eed21; 0x1697f3fe6bb49233; 0xccbac1a4f0d73e13; 0x37f62fe0da748e7a; 0x313e6a4e00917fb3];
 [0xfd847f911d1b5639; 0x9f8e090b2ed65d8e; 0x7acddfbdb79deacf; 0xea68bc7b57a79a99; 0x7f95f3c8ed09ad75; 0xd05754e2cfb45281; 0xd3d080c825be306e; 0x368f1898e4edc9a1];
 [0x5445648a9e2abe92; 0xde0fffac00475b31; 0xea45c7982dff2709; 0x823ce53dce647630; 0x93a927c84c7d2065; 0xd5853659bdfbe9f; 0xf1f58a83da474f67; 0x3a08c3c25065fa68];
 [0x9611e4b5bd734cf2; 0x52a525f0b16ae3cb; 0xf7a00e2b20bef7fd; 0xa201fd36bde41213; 0xda9de31d299b6275; 0x6632f9db16848387; 0xdd64b463d869147b; 0xc32945188d520902];
 [0x78b0e85ed05e64d8; 0xc71a2ad12d3fe503; 0x5501315b4fa8e508; 0xd0d7f985533378; 0xd1f7b7f83adc8d96; 0xacb7cc615a9926cf; 0x417b247609406e55; 0x91f43e140ad68c16];
 [0x1c280e5b514e7346; 0xe85161137eeef711; 0x819b212b24ada4c5; 0x882247351b7a92e2; 0x9cd4c7340e9709e4; 0x6bedf1fc1e48ac05; 0xb7c1255f77db817a; 0xf6d19f0f527a0907];
 [0x3e78b0810761769a; 0x416437de21349752; 0x30877b7211cd0c63; 0x785ae3807a929dc; 0x4fab3c5428c3c826; 0x7baa3b6e848326cb; 0xcef31fd30319a94f; 0x3b3893fde220b52e];
 [0x71b26cce5a1190bc; 0x32e610edd0e4db2c; 0xbab8ce50d37dd3e4; 0x2f20b89b9a773731; 0x6095747657442986; 0xb8e23448060e4303; 0xb6b47dd2d709e09a; 0x11709ed036fb5f53];
 [0xb168e52b4d49c2d1; 0xb1a9798894278489; 0x8d40652a0db858e0; 0x4c8abac97c2fcce1; 0x5472fc18a3235237; 0xe6d8d8ef422b2aad; 0x9717a2e79965bd94; 0xd469eb8152218df];
 [0x46ca4b4c5211d82; 0x654146b0ad5504dd; 0xa4ab038fdabb2746; 0x3bce69dbbd41540a; 0x7fd35133b4ade9dc; 0xc03fab634eca15cc; 0x9b5fb3d596a8c1d6; 0x99a362050c584bad];
 [0xf1fa83efe87c1698; 0x322e5b3afbe28249; 0x5c8b6d3303d8ebc0; 0x49305f644ffc2f97; 0xc09899f75e488a35; 0x99fa19830c14bcee; 0xdc8bbe6ed77c8621; 0x1bcc0f76ae851ce9];
 [0xdef0af9357d261; 0x2b2de7153815e382; 0x28d378fa7e3530d1; 0x82dbe72e7c39c355; 0xbfdb0e4ca00e3fca; 0xabbde4f98eb75e61; 0x6ca527cddbb9bcba; 0x4604b2de28030e98];
 [0xad049c9ce1682d1a; 0xf97cae66fc5c0756; 0xafd9821772fdb569; 0x59b1bfae909abe15; 0xbbeb2e0632324347; 0x386f5e7b9a33f122; 0xf27e7ac97963d82b; 0xa7e09dd5569b1a79];
 [0x41cbf4abc2f5dbea; 0x6708a752300f6174; 0xc86e610519fb8e12; 0xfbb23ed15cbed477; 0xf535142d2e09dc6; 0x5a237ec911adcc7b; 0xbd703ef1c9378706; 0x8dcd70ea1fc1a556];
 [0x81fa026c8cebd84; 0x3670f8b5997e2b9; 0x183ab5e44e37d759; 0x2ab714aa735092e8; 0x386a27da0d38fe3a; 0x2ab135b337c9e9e8; 0x4bafbeb2fc8275cb; 0x8ee05db351fc9cf0];
 [0x7244199b63ffac59; 0x842d7db9f7bc68b8; 0xa4bafeaaac7f7d82; 0x3e64b64f340cc557; 0xa61ad9ec04eac093; 0x8ebea181bdf90cd4; 0x5c814db84e705534; 0x1a30b3d356a6e896];
 [0xf8ecdc34e71b6fa1; 0xa66a8566427e63e; 0xbce0130e83503225; 0x565e9912690a5dc4; 0xc6945e0e69304203; 0xda896e3b2f3382d2; 0x889c5ab04211cc67; 0xf3740125775399d2];
 [0x1ce0587b8e21363; 0xf8eb9936559e6ea9; 0x7be4dfe353e89bba; 0xf50caeb5b8620c30; 0xfa0968cc38cd26af; 0x4135055db789db6a; 0x28262f8385771de0; 0xb6bf375ec83a6a2a];
 [0x68d4c1200004d0a2; 0x93fbdae21795647; 0xc4dcee6b372f296e; 0xbd1a908ba2b2c57c; 0x8f6c4a4dd98896c6; 0x88299e153cb4eb4e; 0x870853af2803c87e; 0x4d5b25c5475ff2ab];
 [0xf242c1b3d05ce8a4; 0xfafebcbaa421c30f; 0xfcb1bbd0ba984528; 0x86439f0abe3dafa1; 0xd1dee5ff9b49159f; 0xd1a4be1043e8af63; 0xe1c278ee34bc27be; 0x46e5356036185f74];
 [0xb34e78e8b4e5f89; 0x66c011762184a224; 0xcd815c456cb0f4ce; 0xbede21f8ccb69339; 0x29324ebac41c548b; 0x7c6459afab419424; 0xd4afeedec4653e6e; 0x749ee2050d174976];
 [0x8346bcb9f044cfd6; 0xb6d780fcf1518df; 0x107db007d51ea467; 0x3a0db621fe6569f0; 0xcdf541bebd1d279f; 0xd9223c94b695ec2b; 0x1fd05c8d4fbf665f; 0xbaa8ceae79dd7a56];
 [0x4abc83df597218a0; 0x38c346f567ede992; 0x359cd975e5b0ac41; 0x4cb2b753375f47fb; 0xb22bf8d024312474; 0x495ed776835b834c; 0x7b1ec777e78dd4f5; 0x4ba11ec6c9426bac];
 [0x19e780109ba7f035; 0x56ebe0049a8ca5b1; 0x5f59d4152bb2f3d5; 0x7423644e2f52736c; 0x845cd87e6a8d9daa; 0x1ef449f6e0660b1a; 0xc40b9f67f133e09d; 0xd48724fb3c15d57d];
 [0x7e523100ae446ec7; 0x1179a87346801470; 0xd105af038e5a1a69; 0x23c0158f71d127c0; 0xe2b03592201e00d3; 0x384907f4f5cae393; 0xca1847b45cf925a0; 0xa9cb9a2411d1daf0];
 [0x118b3160a02b2b1; 0xd56336f2dfc24fd3; 0x2ece195851c9f57b; 0xbc3fbcb2d507027f; 0xe5076c7cae2fb40e; 0xd2a1cc3a18fe90f8; 0xe7edf0887ee65826; 0x679c5cc0df68a172];
 [0x65f82a1187b9f1aa; 0x9e1fa2eb6f8bd4bf; 0x7541dd1e3dcd2a08; 0x4f4c8d1ac94fc07e; 0x37493bad79679b10; 0x2af8afdec8e1cbc3; 0x44dc04e5a3723ca; 0xa9ba6f90fb9c714];
 [0x470ad508bc893c21; 0xe57a5fb58a0e320a; 0xd97f07a081db65f4; 0x99359198269721b0; 0xcddc82fa8a5da31; 0x4658ea01e4bcedb; 0x67fde3bfca5b02ea; 0x4929b1d0ed31ba92];
 [0x74fdb94378b402a3; 0x328baf09bbb5ee3a; 0xcd97486132ec6674; 0xbbf440c767050036; 0x98025c879807cf79; 0x19904b7cee64b168; 0xf192cb3f8e38a8de; 0x636786d01953cffe];
 [0x966779a44a377f72; 0xa04cb0342890a016; 0xdc0f544b3ffd83bb; 0x406e97b7bb44baf; 0xb1f3079743295877; 0x889c5fe1d9bbbf9; 0x9d843edfbd13bc4e; 0x3c82fb115a01f9e0];
 [0xfb5b33d748b246a0; 0xd06871401f41dd87; 0x5bb16d00d1a6ef7b; 0xc6cbfbce530236b9; 0x536d7b10b7a0cdf8; 0xb281703ddbb7bd8d; 0xc17ace82528c76b0; 0x630019299de9255c];
 [0x895601410518a818; 0xdfc4a990adc09f6; 0xbde8b01d28351145; 0xc9a1105debb6416e; 0x1b886645a25241a9; 0xe925dcf7d2ad5580; 0x7a4e0d9241cbd64d; 0xfbc8a3574f38f78d];
 [0x5a734b4fff62fdea; 0x2e126b52884c8eea; 0xfda507d5055ac16; 0xd923ee6efd03e725; 0x718af7ce4b40a106; 0x43112ac6a3829867; 0x1a41d8ccbe1e98ec; 0x5bae83a728396914];
 [0xed5996630416b1e0; 0xe76c50fa5e9a83a9; 0x1e9dfe54c70a3672; 0xa7be2475a1e04f03; 0x221c685f9ce161bc; 0xa9e770a20df38381; 0x5fbb85ed28aaf437; 0x28012c805bfe0c21];
 [0xdcab62157b5514d9; 0x17c5f165227aeb08; 0x5a1e5bff1defc23a; 0x3409f976f9b37cf8; 0xf63394ddeabcf24d; 0x4fb583ae87bb45be; 0xdb267a45bd5a346b; 0xf0d993bd70346e08];
 [0xc99d93d5d214ac11; 0x4673f1880947d8ad; 0x9cbd856aa6e35220; 0xe36f00bec7b75ede; 0x7febdbf8d8803928; 0xaa159afe1aa814ce; 0xb5d2b393a726155e; 0x7bb3ec3e9a16a4ed];
 [0x47356fe1529246b0; 0x233f89a172e50cef; 0x769e14f08c7c2b6d; 0x6950d371b0d982bb; 0x7d057f1445c3aa6b; 0x2d094c5f63d46171; 0x10f324f264bbeec0; 0xf91446dff4b10794];
 [0xb24cfc986988b3c9; 0xc94ffd27b168a522; 0x4d022559562115c7; 0x65f56f21819d1268; 0xc92a336291395a6c; 0xf5044419041606bf; 0x93d9274a15413504; 0xa381537c7165ffbb];
 [0x89e8faac6d62fbf6; 0x68a85b0bd98619e1; 0x770e0ffdf2db4080; 0x34aef844fd0d448f; 0x888794451d5f517d; 0x5e2885cfcbdb51ac; 0x6a27404c0eed3cd6; 0xbdd3f5a46584ce74];
 [0x81dfa6c61964813e; 0xf2b06fc11791d524; 0xdf738ca313984267; 0x88f88d44502d4b06; 0xa7474e89b7c0fcaa; 0x7a5e50f41d95a048; 0xab2795153e9f55a3; 0xd9218637f7f2fd62];
 [0xbd334e901958f594; 0xbfda97db3be6c9db; 0x992529033d960c31; 0x23f7853888f2afbd; 0x9642318e2cb6a067; 0xe56abea9b8cf8d21; 0xaef862c01900e651; 0x1feada8e09264e99];
 [0x1886f9900d53c363; 0x60467e5805ee8ef6; 0x1430e9bdbaa02380; 0x9f50dd7fb969dab5; 0xd16414006ed95a74; 0xe6186413a6fd090c; 0x74db3c175adb60cf; 0x295ffde645406e56];
 [0xc6225d38ef06b48b; 0x289a391ed53276e8; 0xa41c755d327d5d63; 0xec73310476f129dc; 0x33a6624137013101; 0x1a086284d9a8d709; 0x29d68fd8a55e5ec1; 0xe90822c3028bb935];
 [0xd5f7dc44786c991d; 0x5f05f5377923933f; 0x412ca8046c835916; 0xd3a26f79d1b8df0c; 0x7b23355d6d9f12f3; 0x8c46d50065922e21; 0xd860dfe7803d9e3f; 0x712a41a97134776e];
 [0xae0ea6dbcf3cf64d; 0xddce027b6ee79585; 0x351bdced9ce00c67; 0xe357c9a5eed802bd; 0x5c7b4d5839df5a8; 0x42533782231abc11; 0xa3bf184d9b673697; 0x3be7b027637735f3];
 [0x753d51f000d0ba64; 0x716e6ffc9c9c97e9; 0x4e34cfd885f77048; 0x652da184fa4e59d0; 0x2af436bf37792e25; 0xa2651b9e0e937c8; 0xf5fe862e0051cfbd; 0x1950100b0c887b15];
 [0xa68668f09893cc25; 0xd2c95ca5320124ab; 0x919366b44dd92ce1; 0x9f8fde4454d7b5c5; 0x8ab5d9c0a68132f7; 0x7fff43d40cf42d50; 0x9d3b67ac7c20f5b8; 0xdbb55a2126bb3cb3];
 [0xcf1fa7f02064d4ac; 0x1f184370a164b21c; 0xf818ac80ce2449f; 0xba0ce946be61ede9; 0xdc2341dc8798ec3c; 0xc1d8c1b61ad6b5c4; 0x86a683e9bb337c98; 0xbf0949b0a065302b];
 [0xb2f3471211b9989d; 0x16d9213569539aaa; 0xeee6b3b6a5e8696c; 0x26632a3fed0b4767; 0xfc1c46f1cf5dd71c; 0xfaa5138eeab9690c; 0xddcc3a7156fe4c04; 0xe56b557869e90d25];
 [0x678436e27953f6f5; 0x7fd5b7a8deb27b51; 0xc563219d877fae75; 0xed335e69ed2bb23e; 0x97d1a5f7b26cc993; 0xae0b53a3431cfe33; 0x426b4270585bc99d; 0xd6ec3575c1ac6127];
 [0xb80b043d5e8ea426; 0xb3a9ffe4987358ae; 0xe0a30f075ba965b4; 0x92e80bf25ce86; 0x34fce0c0cf748a68; 0x5e81e883edf72d5d; 0xd4e844756a33b79c; 0x6b1dbdbc92acd1c3];
 [0x1ec5cb2777327d14; 0xab644d01c1810b4; 0x6375341d7ae88649; 0x8d65ebbb5ba062ca; 0x68c0f52ef3e611f0; 0xef505a09220d33ce; 0x370c5ec7519c8964; 0x4fb39f1399c5ed9b];
 [0xdbad046d8f1247f7; 0xd1f5d943b9736a00; 0x6513575898ca34a7; 0x2e3ba6998c94c101; 0xc88941575ea84c1a; 0xf33067becbc15fd5; 0xff3f9fd46f27354e; 0x2c3bf0226d3d0c83];
 [0xd7e75f98c2ae9997; 0xde2b89870e84d7be; 0x1c807f2e30eb162c; 0xd0e328897903e9a0; 0x3c0b55946426ca8d; 0xbe350e69fa527fde; 0x2bd15c62b03c7b0f; 0xba9b48bec2f05cbd];
 [0xa3ca51d4321e4b3b; 0x528974a96cb27a11; 0xc2cd17a7367178ba; 0x98bd906069370697; 0x3159987390aeebee; 0xe0818ecb5135ec2b; 0x8ec6678c983f98ed; 0x8d5b39ec3e74116e];
 [0xf57578ba7998d2ce; 0xa456237f51234134; 0x42a68a6279c25a94; 0xba8fb09e6ac8ab21; 0x9152f2562cdf27e0; 0xd8e3222afb1a51e5; 0xb412da0cdb54756c; 0xc8ea2a6ba3084d4a];
 [0xffcdd7f035f692ed; 0xde9efd4b27a0f695; 0xe3ad7d1397c8152a; 0xd646a9547a68273; 0x2b03fb653ec48773; 0x4357ca645c3750b8; 0xc2f0ed789f5f7297; 0xb3c5c869384f8e4];
 [0x39725882ca5b6b0a; 0x1b47b12a4d65e540; 0x9de25237b3856697; 0xf0368bf9fa8e315b; 0x6c04dfbbfb1f1d0d; 0x458d802d5fdf69d2; 0xedac2ff6f4fc98c7; 0x77769e6496858180];
 [0x202e2f82bcb63425; 0xdc0e331405506999; 0x70c8f55699af17a0; 0x8bbd5736b712dc9f; 0x4634e17f8e8738cb; 0x2d5e30ab25ce93e6; 0x592edbb40398b02b; 0xbf2522a125c8014a];
 [0x398ac7d7b7fd22d4; 0x6c75ae1a0da6dcdc; 0x92be1c70522ac771; 0x4508aac6e5b445f5; 0x8ec05bf681887264; 0x3663e7827e18be3d; 0x7a39c35e1f50a029; 0xa1b4cf4f7b599cc9];
 [0x9f77afbd43d17735; 0x64dbe14eb3d4ff08; 0xb15e4de26f465329; 0x4625858543939aa9; 0xae15949b46fcb7ee; 0x962427056e18ac4f; 0xcf3d618c4b13f0a8; 0x520a4983d1c5208b];
 [0x766bd702755d9851; 0xbb95107e7011059b; 0xedc3910ec5406ae9; 0xca474496715ccfec; 0xc97abb7f9cd8822a; 0x483018ebef67e775; 0x6176e41c3b290140; 0x2a6dc5dabd944464];
 [0x2cdda6312e0a6f89; 0x423e759feaeb34d9; 0x7c28950d6612cdbf; 0x62d155781d01afd0; 0x80714278cb9e2256; 0xc565f2578b9ed5c4; 0x5ce08c437ed3da6b; 0x1f4f035d5b76fbe2];
 [0x612fe601ee18ac3; 0xb6407498bcacad29; 0xec0aef99de9611f1; 0xdaa93851904a594c; 0xce11aa7227916696; 0x91773757ca3cc965; 0x66ef7f87348212c7; 0xd08725d063bf2075];
 [0xde0cd34d8ba07f04; 0xb195362135c7b2f6; 0xeea147f65490e711; 0xad1e683314b8ebcd; 0x36c0eb8a0494ee0e; 0x1e9b9ba7c2c23070; 0x4347e7ed8c7ba1e5; 0xe0752b06afd2a897];
 [0x46a5f334ca71b544; 0x94fe478f0a3ab2b8; 0x8ada5edd19992b98; 0x6fa752a36193fd82; 0xaa6ed816057a4b03; 0xa6b430e06f896885; 0xa1799a0fc49afe10; 0x1f0bd9bab4011181];
 [0x1e0d9d1c309f0cb8; 0x9f2907a20a7affe4; 0x3cc3b19109dd1f98; 0x62e79a0d7c403e10; 0x32b39c8407b57c4f; 0xeba717799fab994d; 0x523102ee516282b6; 0x78f32db693798979];
 [0x6eb4f054c2cadeca; 0x2e96cb21d099ceb8; 0x75a6c7c44ad6445c; 0xdeaeb1618104d456; 0xd351e2e17dc42375; 0xfb20284114eec16a; 0x5d05e15e5773202a; 0xff0f3938fc1fef1c];
 [0xe3416f5656acbb60; 0xf4fd720a5b51b007; 0x42296fb07c359d8e; 0x9127393fe3047589; 0x4e5df58cfe14dddb; 0xda062bdb07ebe6f7; 0x11a898860b61e5b5; 0xdd685e41e0543afd];
 [0x9b13f1d3b7517ea7; 0x80d9702b3efc9e87; 0xbeadbbf4afb4e2fa; 0x3f0b05823144218a; 0x8d2f3016bf8d2957; 0x891f3edba0935c77; 0x57ddf43b9dca05cf; 0x8fa70292930e9b26];
 [0x8b19bb2c33f45539; 0x4ca6f85a390126da; 0xe5ab78fb2c1a8f87; 0x1458db16d28f1cd3; 0x7f5cda671381cc03; 0x2056109a31be4122; 0xc1ceef54ce5fc6f6; 0x53548690194c3305];
 [0x28c0943d55cf3b9d; 0x8ba5a1cf701c500e; 0x49d897d9d2cdf910; 0xa80c1d8aba16bbf; 0x417612af0245500b; 0x1d31297169d57b51; 0x69f1f79fd3f937b7; 0xedd07347a7a448f9];
 [0xbdea4eb844f07c95; 0x7838529272bfbf22; 0xe433b6bc2670243a; 0xa6d32a900a307a4e; 0xa972f4b607dc73bf; 0xa13dc0e203398218; 0x3e10fc84ac102ffd; 0x48c04e49eb17f3e7];
 [0x726e06c20393fd32; 0xb97b7365e689c92f; 0x342114b743d29027; 0x5de63a764020562d; 0xbecc46343b1b62ab; 0x37ddf95be1b1f69; 0xc8ea9dfd573156de; 0x1fef56b4885426f6];
 [0x651d86fbecccb210; 0xa4fb448b89316414; 0xad2d6fa686e78505; 0xe452c7a00b175588; 0x4f739aa22c36c0a7; 0x2ce197d82ff621df; 0x2f3332c1e9706327; 0xd0ae24b61912e8df];
 [0xdb1500ea66b5d478; 0x4cb17573b938279c; 0xb5fd6a912aadd1ae; 0x1192f390864bb026; 0x548eb7b54ba31575; 0xa891ef3bc6da6f0c; 0xde3186275bc0c3fb; 0xd42b77215f85a875];
 [0xbc538451998dfee; 0x6e6742f82c63896b; 0xcdd3d54622efeb9f; 0xebe3506cc4fbc727; 0x4d0c503c15b68ddf; 0xb325b866aae93a23; 0x88e8a67660e6fd47; 0x5ff32864ca7edc87];
 [0x66da129e51092fbc; 0x5a955abb1530a9cf; 0x197c003ff28f2aa; 0xa3eeadee082e0c7f; 0x7d6b35ecb560eace; 0x437ed48a9065251a; 0xf00fe7892e919749; 0xe8ec7eeb13b21435];
 [0x2409bd1d52306039; 0x657e300e3a5d4dc9; 0xd1bc93893b6d1d75; 0xf3c12f8ea6214cab; 0xf9916c17d57167ed; 0xee202a2d579a8579; 0xe772cd231cc3dc62; 0x2f03c98149e892c7];
 [0x4bf53c523ccc59b6; 0x6b6e28736f6674fd; 0xc23039770c9232bb; 0xa2f85abf5da33c49; 0x410f9c3fbf9db373; 0x93ddb2c8925a91b7; 0x83131dcdedc51420; 0xfe050d0371de3f7d];
 [0x1cab5c606c61f9a6; 0x1da5bd27d1df6ebd; 0xa38eb7a57cb5b6ce; 0x7b8decae967e6495; 0x1fb7e70f8b7b2e84; 0xf8615272187eec9a; 0x4a997daf5190d146; 0xb56f9d07b5184235];
 [0x9faefc3435d0aee7; 0x982c5620b82ccaad; 0x75421d91d3f970c9; 0x5066796b6f4157cf; 0x39d532b9975b6233; 0x7fdaeec1346ffa73; 0x4c25ed0be84f4529; 0x987401a2e82d372b];
 [0x6e94570843c7f476; 0x25eac478a2381dd7; 0x6a0bb830d632eb2e; 0xbd3af2aa09b103ec; 0xa39d8db3539a601b; 0xc8c19c7117ec2687; 0x73d60ded561391d6; 0x86d24d1c4e2bbf97];
 [0x9825dda1d3cccbce; 0xef19f4f9c35b6c04; 0x7a671d8bea855200; 0x1c4a0d97416390f7; 0x92186e6a136b537d; 0x19e4e5332e9fc358; 0xd64ee921ec3e6972; 0x34f60bb790cf9884];
 [0xcae82d3ae4e5112a; 0x88cda58c964d16e0; 0x6a747dde54694956; 0xb9502f98051159a7; 0xab28a470d5501582; 0xe079cb553899b2d7; 0x2801de23036178da; 0xbb64df46cc61316d];
 [0xa13688feb4a20d0a; 0x7136717b876bef49; 0xcc7b1318de7cb54b; 0x5ad35441f978dfd4; 0x1f825ade3fc90a9c; 0xa95e85a448a0ae0d; 0x3430d3f37a96309c; 0x5f42dc812c1d9a6d];
 [0x967b39e7e0d36e81; 0xd0807a346b194a53; 0x3ce745f033892158; 0xbba6e470ebab37b7; 0x751b50546481caa6; 0xda2d071a27cbb023; 0x8377dabd47d3ff9d; 0x574490ed456afe33];
 [0x6be5d3c401fe4df; 0x61889531587e79ad; 0xe7b942099d90e163; 0xc88f0fffcbd34a73; 0xe0f7294ff0734375; 0xbf2afd38fd3a560c; 0x58728ad4562103b6; 0xddece4a7bec8cc4e];
 [0xdf18b11ba98af6db; 0x7070f7d75d8b2803; 0x8abc9ad0ff7dd3d; 0x745ad1a23f978e7f; 0xd4e80407a0d9c0d3; 0x126f21070486ceb3; 0xca2044aecba73889; 0x4e5442ff3e44894a];
 [0xc3dfb0bbd0ecd058; 0x3ef87835cb4a763d; 0x29d1e0c05ab8a408; 0x89fd4087ff3b142c; 0xb3cc7746af3aa156; 0x5e63196fb3da19e5; 0x9489c1a762b294d8; 0x681a0d2aa6d7c698];
 [0xb5b8bf063f4f224e; 0x4c72327ed6b84096; 0xfc8e00e24f6180ce; 0xc9b867951d9db658; 0x459f24f26f84e5a0; 0x702bb4ec28fe13c9; 0xdcddd9b4355b1a22; 0xcb3ba366c6d70ff3];
 [0x35ae3e79ab2cf8f3; 0x5d607f961bcdbf7d; 0x42d657c6808d7350; 0x64364b91cacbdbdb; 0xc7d284d51eb6d174; 0x572961b1c09ee62a; 0x4108cd66cf75c44e; 0xe9d40fa2f4fead09];
 [0x8ef0fdd36179f247; 0x6fe9038de6f765ae; 0xc334d84da69d3a09; 0x3c8e068301f45cf6; 0x6247179e46ab8d4d; 0xd02d724719fe2bf3; 0x7b747b62e02d2b07; 0xc4bff6bf195d40aa];
 [0x5fa6095cd195cf3f; 0x10d54390a64266e5; 0x2a0c559b382ce83b; 0xbd7956703215ae2a; 0x2f4b158710c51741; 0x2a9dcfcda81ca344; 0x1c4b14bb3b1f7086; 0x2e033e82455c4fd9];
 [0x802d14315286cde5; 0xd5e35187b83f07fc; 0x8ff3b71f0b135766; 0x8ebb806d18f56861; 0x87a5c27010691778; 0x470500d640f52606; 0xd9f7cfbf186cb130; 0x3c756c5ac63c1fea];
 [0x3fd5e7180b32c039; 0x504fd0d545768caa; 0xe83db428c279aaea; 0x8a0177996d9ae87e; 0xe6288ee926011f3d; 0x6c6757ed9e948731; 0xe3d540d1e4bd2759; 0x12e7b19ca4ef518d];
 [0x579967cc52eadcd3; 0xbbeacedc7cd65b18; 0x78e3ee885b5998bb; 0x850c96d3897654a2; 0xa1139ef63c330aee; 0xd0e444635a46c60f; 0xeeeedb778395b395; 0x9c07f20020921fae];
 [0x37da117f78083aaf; 0x265fecf17a993099; 0x5dd96e6bbbe52537; 0x3714da1c4d482edd; 0x78503bd800a34de1; 0xc695d8ac8418c487; 0xba173488b615d8b9; 0x4495a6c9ff3609cf];
 [0xbf649b75c93f75e8; 0x38dd574d971ebd88; 0x7822ca4b54c31879; 0x8ac16a992619a387; 0x7f6f871246131dd5; 0x839465f33b2e406f; 0xc5e708a7869ef033; 0xdcb374b706bb01a8];
 [0x28b94185e078e928; 0x16f9fffd0724b071; 0x3a1cbbe29fa9f4de; 0x3e9fde64b994a3; 0xd48a9f509cf33984; 0xf0f309ec87262a9f; 0x275f4148fec8b482; 0x44081826d7ec9a54];
 [0x3827c13c4e881b69; 0x47babc46be9eab60; 0x96ceab6134b3ff6c; 0xc2937b2c24f1074; 0x61dc5d75a40da414; 0xbc1edc75ec2eec52; 0x94cbc9d8b7860311; 0x92dd2b8554de5d37];
 [0xd18c03532d3d3bb7; 0xd0fd25c98d9c7fd1; 0x37fd03927058de9e; 0x758f8f8e4c9b00c3; 0x7e1fb06c3f74b021; 0xbba8d723dad66cc4; 0xd60fe95bc95d8c04; 0xa15f01bffd9f84a0];
 [0x2d1e1f108b45cb69; 0x3dd2331e93847375; 0xc39738c5879757b; 0x8dd327ab0b93d517; 0x3862793c64c574ba; 0xd26b3ca163758b3a; 0xfda93a15851398ba; 0x2e83b520fe54c65e];
 [0x5f7596b9d43e618d; 0x76c50d078c019150; 0xbe33fe7e0cbaa8b; 0x3d5d0ec1b3ab65d2; 0xbcc7f1e426d3021d; 0x40a8b79cbd3e5148; 0x37a06aa8c598afa0; 0xe7ec08d48a5a9a0d];
 [0xb3def0aa7161718c; 0xc8e6556880588c3d; 0x10ff481c0c185b; 0x632dc41869ad880; 0xa3ab63e65594398e; 0xb2ff4d53da0d9b7; 0x45f343086b57b6ac; 0x21a8a1a32115a2bb];
 [0x442027bfa7fb9613; 0xf4fe56cc2ec80099; 0x6117496122f0e9e4; 0xe1c29f56c628a0d2; 0xce95ad9be800b70e; 0x16d7140f2379f4bf; 0x5f5674b40a9e0cdc; 0xb38fe1beea4f028];
 [0xbfb2aa9350161fab; 0x3df916b865d7f90a; 0xd3eea71c3f834186; 0x997097c63481f972; 0x89f8c68ebcc68297; 0xb996ab4ad9c6e40b; 0x99df6ebcba5a6ede; 0x94a0f23a38a49698];
 [0xc52aacb27f01dcb9; 0x60c58713b8341130; 0xf7f1481e8fecef79; 0xcad909509a1e8979; 0xf2ae86a30f4e6a38; 0xdb4bcbbc12f28739; 0x6e400b2874833315; 0x25c314a7c51a907c];
 [0x1a0ee6e7286753cd; 0x9928c05d2aa4cf5a; 0x142e7d610bdcc3af; 0xf9d7a2fc23db3828; 0xfd347b6f179188c2; 0x2575fc098f31ee2a; 0x741e6cb5ae42e2fe; 0xe32f37fbcfa50495];
 [0x24bc805e834b8c1b; 0xe6e5ecf27756ee1e; 0xed4b6b20dfd90c0a; 0xa392b89953cc9aeb; 0x2702fcd9ebad9821; 0x368511dfe01fcf6a; 0xdbf6cb07eaf7b704; 0x7de3256dfff9a122];
 [0x834aab8bca890888; 0x6d025b7e6f0d1157; 0xf67b1b92dc7fc42; 0xd91bcebb9cf0c670; 0x7b52a4c13f4e06e2; 0xde09f6b28835563; 0xc5b9da26c29f45a9; 0xaa0ad5c62d052701];
 [0xdf0e44c3ea9b9a0b; 0x917c8ca0cd382302; 0xefd9dd599a75b87c; 0xa57ac68b456fffa6; 0x3b6baceaaebe7a75; 0x60003671b897fe82; 0x7301bbc13dcdc09a; 0xb827e2c01dcb1458];
 [0xdb572ac956a88119; 0x807345cd783f0c7b; 0x840f4acbb271a425; 0x85b94b1f20cc1d9b; 0xf6e638920160dec7; 0xccbd6f4c9d0a6417; 0x90c0b213ef649e29; 0xa2514bf4d0222955];
 [0xe894818c9ef99e6b; 0x271b336fc2ec902d; 0x6299f706edb71617; 0xdb7cb0297113fd12; 0xafe04495908b78b9; 0x9ebbea62e1957611; 0xf61917662ce24bf0; 0x3a64e561048c3476];
 [0x9e744211a19440cf; 0xf582bf7d5f41a3f9; 0xa2ff0c6f3e31a981; 0xa6c5338ae58d5ec7; 0x9161a3c53fd62a80; 0x7954fd88fd8a5e06; 0x2ad3e2d748479815; 0xb8264736737763b8];
 [0xa450870a13615cdd; 0x4d3edc9f2ecfe752; 0x5f50b348e09624ad; 0xe67ab6b625d52f46; 0xbd19e0064d94c543; 0x2380b828468e5811; 0x80644a814dcff030; 0x8fd17bab3913a547];
 [0xb0412ddb4cebcc38; 0x8397accc83005900; 0x240bd6f7d0691e89; 0x8f9827ad97e438dd; 0x409037c133529cf4; 0xc220d9d321195442; 0xceedbc927aa44895; 0x90c79f1f7e64fd80];
 [0x6ec8d4f01e417d0c; 0x440e2b16aa2e1bd8; 0x4834ea0e2c773c13; 0xa5953520c00a64ac; 0x7ae8e1da7cb2a335; 0xf14935b04a4786ac; 0x5403b3e08d5277df; 0x15f41ea93834cc02];
 [0x816d99b0da578d42; 0xdd4c0a004ea74f01; 0x5c6b24c251f73361; 0x78e1389637ecc706; 0x68e1035d2188ab2; 0xdc13737e9ed0c6e1; 0x4ecdaa400fa00709; 0xf8a117a832dfbf69];
 [0xbc9f069bfff4c31d; 0x21112a308d165374; 0x70489dccb0a8c57f; 0x5fdce2d8dbec6681; 0xcb44db78c4d07dea; 0x71703d0826970871; 0xe228a9e03a703de4; 0x33ab3633ee014826];
 [0xbe9af1a79063d6b8; 0x9c3517210f3ced50; 0xd0f9895b88e81293; 0x45dca58667a781c8; 0xb81835b2c9529c20; 0x15594eb610f880a0; 0xf524554e9e328883; 0xa30d02f0d49cb21b];
 [0x7d837410b5a5bf58; 0x9d5e49ade2a53e53; 0x8a5def0eaa792001; 0x952a0c225345d248; 0x97626b44537e2155; 0x2b2cbcf773e36df6; 0xe78d3a06358d1376; 0x73459042393f5595];
 [0x83329bb1959b37da; 0x873d8c9f4646e2b2; 0xd7249840635bf584; 0xdcdf0b7548ce33e; 0x21d87092ca9cb95b; 0x3d9c6566d4913565; 0x81b7f199f595c870; 0xf70d53d0488169f2];
 [0xe25cc525378dde69; 0xcd0fa688bea2604f; 0xce44977fbc166b62; 0x5ba7027afb95a80c; 0xa58084ee94f0f4; 0xf1d7f2c1ad942e2c; 0x46a4264aab35e06f; 0xf3a5868deff0fe27];
 [0x87d0ba97f3c8c117; 0x5d6cfdbfbbdb1163; 0x3d648cb452603926; 0xc196ae6d7303fadf; 0xe23bfe5facd35fa8; 0x6ce1fe9ae24839be; 0xaac11a07ab31ebb2; 0x33da92db15fa49b5];
 [0x9fb2831ab214d061; 0x3803d1c47d20d62c; 0xa7daccba6a3b550f; 0x1650224f961977ed; 0x6a95d4ec949d95e; 0xa5ce0f8bd2b34ad5; 0x4c7908a846aa6631; 0x4e4df8a8bde1ec3e];
 [0xc67df32046f1d0f4; 0x82c790c88b0e4bc9; 0xae039e6c4e85434f; 0x83a6643569690651; 0x9ffdbda33ac5ae45; 0xbcd7f3b9fdf879; 0xe1f2d6fda60e0a1d; 0x88451e8d710a181d];
 [0xca2f91cf478bc41c; 0x8a87af44376276f; 0x2d91dc0e48a35ddb; 0x4f4b5fd405e41cea; 0x349c5dd82bb8979d; 0x40505352df55c569; 0x8379c7839d8420c2; 0x9415d0d3386fdfb1];
 [0xbc1acd4545741cd9; 0x23a00833a3b7b876; 0xfc5208f9891586be; 0x11bea2357084961; 0x90bb7e279e0fd632; 0xbb4edea68a4cffd5; 0xce50b94c666edfe9; 0x5ba02793fc9389c2];
 [0x1b483efaf9c7660a; 0x78b145d905bb1758; 0xc2fb9e461421db99; 0x75a9e64c34d1916a; 0xb5f77d35580290fa; 0x91bd0c4cbeea0a31; 0xfeb589ddcb159b17; 0xdeb864e1b52e56d9];
 [0xa5cf90ea5021a7ab; 0x6dc43ec38954f683; 0x5a29146d032075d0; 0x759cec7aa3db3c6f; 0x1cad1618f53f17e6; 0x4ddb022b5621a4bd; 0xb467433a440c8dee; 0x2f547253f6411eca];
 [0xcb1744af89aa0e3a; 0xf8c60ea3d3311281; 0x17e1d0498b1d9008; 0x12cac91ee83807fa; 0x805d4ce40d0e6b31; 0xe3e99782f0958e19; 0xc8184b0b0ef21915; 0x80a5d3577b195b2c];
 [0x95ae0eeedd3576dd; 0xa783162d5454b225; 0xac79939094579c21; 0xea8edfc6f0546644; 0xc2d255ae9547ade0; 0x5e69968fa2ffb335; 0x4134ec52a67139d4; 0xa2368d5861b48dd3];
 [0x1ba7d27e186f0c81; 0x463ea92ecf4b9f4c; 0xe019e0b806cd8cbb; 0xa912d35f1740f974; 0xacac816c118b6bb; 0xc1d5516535f3464d; 0x6fefcfb0dc516ff2; 0xd50dfc15dea2b30d];
 [0xf3a26c01cd649ce; 0x3fb9e820c34548c; 0x9ef540d196b7bbf9; 0xe39dfd490e25fb2e; 0x784d5e79f72463fe; 0xc3af6634040e106f; 0x9ed70707401046cc; 0x699c1773aaf7bb78];
 [0x809c2177656ea19d; 0x9f358ae7c174b45d; 0x6c8dd016fc6341f5; 0x592a9ebe728f1461; 0x3f0ac0cd87059032; 0xfff40031604697b4; 0xb5c94f99389a5311; 0x92f621039f849e8a];
 [0xbf5bdbc93deb5c31; 0xb0fd6620d75ad2c2; 0x3dd430e3f920d665; 0x18aa2ec9138cd1d0; 0xe7658989e637bf09; 0x46c5baf26b780754; 0xc04c20694526d5eb; 0xf9ae365b82a9fd94];
 [0x3ca698d9368149d0; 0x88da9ffab334ac24; 0x3a93e311baf9122f; 0xac77a6d2c9942bd7; 0x8595e1eadf631581; 0xe20f079bf26126e; 0x76418ccb67a1a71d; 0x6d9e09825349cc24];
 [0xa2ebf9bcfde776e8; 0x22758df57b5a4cca; 0xfe92e321fe08307f; 0xbc7285099d9743bf; 0x3e85240d1d9d71db; 0x4feb78e2e2ee03aa; 0xb1c94ff703715298; 0xdb405b9c2c39fe9c];
 [0x19d7c827fbffef95; 0xcae9c5f098f213ed; 0x79b59d7b1236334c; 0x9d4c8a3609fbcf46; 0x9f44dde3b806aeb6; 0x6f9f973322ce4369; 0xd1b02bbbcbd14834; 0xf1439872dd0fe669];
 [0xa2badf262fd0d4ac; 0x960f24536cb86caa; 0x73543dd2e3ff1daf; 0xd1a4a37deca1281f; 0x3a8356ce6a63c2a2; 0x9a3ac6f335a32e32; 0x13175c5f4b58f5c7; 0x2b03a5e32a616003];
 [0x844aa47c11017879; 0x878188a2a7e021fc; 0xe8568a00b6f40962; 0xa81ee9c4dbd5e670; 0x89af2e76be50d869; 0xbca6f821d273d9a3; 0x269e297c3341b14f; 0x99faa976b1388dc9];
 [0x6b19c457021c184; 0x60cc2a4e0294dbee; 0x76060bb3e4a0caaf; 0x4eeda88d6c9bca0b; 0x1f8c291a7be3edb7; 0xb2e856221c1f040; 0x676f2e71f1e17b1c; 0xadb18cc3feefa165];
 [0xb431ecbc17182fa8; 0x893a86e81f52d256; 0xf305aa9f3b61157b; 0x369ca77352195838; 0xdb6885e5dcf6efdd; 0xae8aa12db599cea3; 0x25d684c0f417c837; 0x9ac313c8f5a917da];
 [0xc900d3d9f653aa6; 0x24cd7e9a020f3cd8; 0x1e658699992e936a; 0xb9357e5daa5f0474; 0xba7314a31b114252; 0x1bcc54a4f8ba1e32; 0x8ac116c07034aa89; 0xb08d89172eb6b87d];
 [0x4212ebc6ec70cc06; 0x258cd4f2a2bd91a7; 0xb6821e9c8f5ae6a1; 0xc2d3774271325c4d; 0xaf4f4ec87e63c71c; 0x625c2e07f6430863; 0x3eb9eafc9bbc9506; 0x73cc4b082183fa41];
 [0x54ee1777dd7760a5; 0x1ecb99ce04061782; 0xd8128824393e7f5f; 0x7a995279dcc96bad; 0x855b2846d8cbf9b; 0xc180985e50985e3b; 0xf9d763916734b119; 0xe617c0a809d9f45a];
 [0x333da572ba8c2045; 0x8049c644a7c4d1df; 0x5fd0eab4c883143d; 0x6c912e1614de9303; 0x2afb5287f95e0e90; 0x4cfbd54e899fbb83; 0x68e369097cd50049; 0xf18f22e3516b24b8];
 [0x27f0b6d2557fc857; 0x44ee3fa9d01b2d46; 0xff9f4de6afe7c243; 0x796938a4da736688; 0x440727957c1a138c; 0x97e1323b111b8ecf; 0xacbea1e78d892e64; 0xded27181a82f116d];
 [0x3762c7aefe68edc1; 0x5e2e852f770e0de; 0x4b098011a9b26e57; 0x935592d868894025; 0x5a124c051d702de7; 0x5f9c3c1ccf781358; 0xcc855d076a597c72; 0x3bd42fbdc0d3c344];
 [0x536c3899ec5aa76f; 0xaf67705847a7dabb; 0x1d31ad3814c664f0; 0xaf36e6e56df80f0a; 0xf9eff95728ba96a9; 0xb5df10f563f5dfb5; 0x5baf70744e1e65a7; 0x43a253a54a46db2f];
 [0x9081dfd873d9b5a8; 0xd28510294cf58f68; 0x40bcce9cbb5f4c4f; 0xd28f4ff9f4225d1b; 0xc9ef32998ac37fd7; 0x396ef8eaee192c0; 0x75ff85b3161536bf; 0x203744f1dcb6ce46];
 [0x9de5f16b901dd85d; 0xdc01f3e655be9c27; 0xc6024fa5cb7fed0e; 0x1ab3b15a8316b12d; 0xedc6b063a6a0cdba; 0xebbdfd4a0dee152d; 0x48a3ea6e46679584; 0xe4c4dff1d0546ec];
 [0xeb02eec3b0104f99; 0x4d5083c044b6804d; 0x6718e32cab4cebd0; 0x5b5c6302e8ca6f21; 0x6f22bd2df4ac8624; 0x22012f9c02a731c3; 0x4d893e2bd0f4c7ed; 0xc4acd8376d801f9d];
 [0x65e0d64d26fd827f; 0x9de5db0484666e41; 0x4c65306f08af14af; 0x4c85bb4c77472110; 0x9e43b3774dbfc5ed; 0x176f0dbaba1ff367; 0xc1c3ccb6afcc4b56; 0x4fa296f70707b38a];
 [0xb2ad2a494da2e57d; 0xeacadb8142ef9c09; 0x38717f645cd9432c; 0x9010edcdf9ad85a6; 0x9a1dc65e0c5767b8; 0x2f0c058b4448bd63; 0x963a38078af33d55; 0xf6eefcbe6301c6fd];
 [0x311a192af9419ca6; 0x9020715ff912ef65; 0x28c3c8f4a3bf432a; 0x69dbec23e0f92598; 0x260bb586cbb949db; 0x428cbc77c29538f5; 0xb8c7c7d6a4bce245; 0x884ae1a4b687dc97];
 [0xd3f7be679e97b7b5; 0xc6546816a297903d; 0x3398123456a983e9; 0x94485f4b70857e98; 0x3d28e3d053d47f68; 0x17502fa60ff92180; 0x7b3b53d8c6ca3041; 0x69f5ae001275f8d7];
 [0xccd26e6cf2de108f; 0x2a90edf9515c227; 0xa2670bde1d40636c; 0x9dee41b744a72534; 0xb7fec031789df41b; 0x30189a6c8cb23ca7; 0x65544df81c8b9342; 0x7f113af6877504a9];
 [0xc8df71aafb592637; 0xa781a6ecac2d0afd; 0x432e36ae89a90866; 0x7e05a1dea6350e17; 0x8d2fcd1e13fbcf6f; 0x495633c566390880; 0xe6fb6fed9f367fa0; 0x775f6c02149d1a88];
 [0x6dcf182b711ff848; 0xfb189d862bfa907e; 0x172631d7ca9c6bf4; 0x6bb3391ca5acc5de; 0x4b91f4f4c3dba50a; 0x8b1d2e33490d9feb; 0xe99cf4ba3270df79; 0xfcdc958f6a95a849];
 [0x74a029686c51a7f; 0xbea109e6ce2448f9; 0xba57637f0a57a4fe; 0x65f74f2dca3190b; 0x4a99a7fde7b26057; 0x63c7808400c21250; 0xe33da3c1478ac198; 0x5e8debf0f4f5570f];
 [0xf052227d178d753a; 0x1a18e689a69fdc8c; 0xdbef75d207b38d47; 0xd44bcda5cd64b34a; 0xd38bfd7f573713a2; 0x87bfd919920e660; 0xfb2bb0078646075a; 0x49c6cd7d7963117a];
 [0x90c7a3bd38d3cb26; 0xbf5449388307c2f9; 0xbbc7c85228bc927d; 0xac748896bf915e73; 0xebed461d8fbe4c82; 0xd831441ee727030c; 0xde0a001b026da47e; 0x3c54c9f30c3ad2db];
 [0xbe91af6c5b14baeb; 0x512bcb2ccf2d53f7; 0xdf42e44d7a2825cf; 0xcc3c8e2f7730fe64; 0xe62b998634bcb0cb; 0xd43322afebe5e0dd; 0xe6daa1ae28fd6edf; 0x6753f9a3b19bd9f3];
 [0xc60d67d60949dfa0; 0x66c08dd9eb20075b; 0x647a8a38897669a8; 0x24f967f855a062f6; 0x6051bb5a4abf234a; 0x44f93f5214c129df; 0x3b0622869276ea87; 0xfe2ce7371cd612ed];
 [0x5572f64334bbf7c9; 0x9bd771edfcb92c94; 0x2f6e3784fa0a7ecc; 0x6e262538d4f08ef3; 0xc49a282b86ce3c3b; 0x6c9fbe410abce8ae; 0x4f569743fc7fbb68; 0x6ad10989c8f9f1d0];
 [0x16886129de0d0df5; 0xbf633532a88c2ed6; 0x86a1d6ee407a7bec; 0x2e650401ac1f4b90; 0xb667fc60180106ce; 0xf7c1e02d58c4e1f4; 0xc396470f2b70e55b; 0xee052e6c6f762321];
 [0x905f9e5e376b2328; 0x144df3d38829dfc9; 0x6927b84ce3222cb; 0xf8c67121437b8434; 0xda9536a138fbb805; 0xdae71bc991f1347; 0x3261f8fc7047ed64; 0xc16996863e8dc339];
 [0xf887e02561c6d68c; 0xeac78b875d6ba490; 0xbfc26542e5bf7b61; 0xec63d894bbaeec46; 0x1ccd880f9768c3f7; 0xff20873ae104bc81; 0x37a4b2ea60dfd88c; 0x95454209316ff1b];
 [0xc12410ebd7d1915d; 0x498b60c2f17586aa; 0x45a07c29128aad78; 0x513a6b0faa88345; 0x3695213290d22eff; 0xfc08f54ddd0f4554; 0x720df32fee1f9132; 0xd51f809c9ffe182c];
 [0xbb316e3c992de0e0; 0x69e57e7ce0a44a32; 0x246c08ebd6da4f00; 0xcc2db22cc6974e3b; 0xe42a319a3a1dff09; 0x65efc773b58f58e0; 0xa29c27f729d97eea; 0x6c9ef031c3a82a48];
 [0x8c3d2bb077be9170; 0xb5d4fe9777648e5e; 0x22877d6d4012a89f; 0xc34b3bde57cd5e60; 0x11722815a74c7810; 0xacea1e5608e31b2d; 0xe71e2521504819bf; 0xdbcda6611bb3c7a4];
 [0x741d97cdb33d5239; 0x119ed6d428bdac9a; 0xb906213b0b4d6182; 0xa8e22a75cb9ba44b; 0xf1f8486eb17d80d9; 0x23e72a2b4ae2aabd; 0x4a5cf98d3c02f096; 0x348c07e1acbbcce0];
 [0xde8cb37b7a3df842; 0x9a22cb855a34ef81; 0x1ff169cd59741810; 0x6c94d63824c0b2bf; 0xdf673ff7b0208fff; 0x9d5ce633901f1eec; 0x4f1185c82c59326a; 0x8cad3328781819ec];
 [0x9bf54b4e430c52b8; 0x2e02e22121d31bea; 0x65d90b2b3e3d994b; 0x163a78a3882f54b7; 0x9aaa7f9a03bf3efa; 0x41c355417d39f711; 0xd8d42c7f835ecba3; 0xe16e27ca7cab1eb1];
 [0xf1d2d68768afa2e1; 0x62928a27bca7d34a; 0xc7cb2022447cae20; 0xe8f99fac05673ae9; 0x11582102f0e181b3; 0xeccd1a5b4ad05681; 0xe8a118402298f3cb; 0xcf762a957205ff51];
 [0xd9f16ff4adb29d5; 0x6e080f4959c9d5b; 0x193d7cda9318659c; 0x6436f40777f7f27f; 0x86cba694ba8d1b0c; 0xf4f3ca647ab30942; 0x533c6a0793f330db; 0x964a9e43110efeb8];
 [0x1f6d2da9454caa47; 0x92753da4d19b1ab5; 0xb94413f0632a52ba; 0xc6f9547eb18fa213; 0xd0f0c079151dddbe; 0x8ee1986028eb256a; 0x1bc51de062c8776c; 0xea397c7fe773c88b];
 [0x5ec606ffa2a0602d; 0x5881237afc60ecec; 0x186c07e14c36e608; 0x2edb51ed84c44c5b; 0xb9461eb3992695e8; 0xd39db9e42fc0212a; 0xc8507e0fb0967105; 0x48614cec9d5e78af];
 [0x3d325511554de8bb; 0x327224b0db693758; 0x4812c1d50557a3d; 0xad022f76ae09e2; 0x87541abf7c8e779f; 0x35e3d02dec8bbaad; 0x46b04aacd9b2d5dd; 0x50d343f12eb45afb];
 [0xdcf7525bff99e620; 0xb27353e1635d6bd0; 0x5b07b020fb8bbbf3; 0x1bf887aa8d84d72e; 0x31bc09aeba122b6f; 0x2f49fe78c6b5d30b; 0x575f5869737dc332; 0x3074b57a7f41f1f2];
 [0x6eb4b2140dbf50f5; 0xacb25b11776dab03; 0x199dfc2edd94e859; 0x9552a4af11dd81ce; 0x9f58c5e4199cac4d; 0x6cb6e3e2612a9866; 0xebf2318f6c539d61; 0xd3c80a8638764714];
 [0x4a743c1da255c671; 0xf3dec64e3ee0c392; 0x47406ccef50dd57e; 0xb0824e470dbb4735; 0x6da5f737c188cee1; 0xa76e2702080d7e3d; 0x375a44eefd1531d0; 0x3025229a95e1c291];
 [0x19ea8ffa76fc421d; 0xeaa7f8f3a59482e0; 0x7c5eb124b8d80f02; 0xaedad54ce6de84d9; 0xbd6b2fe5ca04ff69; 0x42511221dd3bbe3e; 0x3af7ae033ecd8a05; 0x324dd171b725acd3];
 [0x9e3561323f433d74; 0x6703e5a5c34ae228; 0x7e7f795b333b41bf; 0xbdee1541121fd274; 0xeb0c668366dbb804; 0x3dfc7f0605664f45; 0x8e1fc105e57e0e2e; 0x9d2329e0b7a60b1];
 [0x5bd9b97b80f12554; 0xd259cd7f64f9c46d; 0x4e40cbe1257788c6; 0x6e6792d27dadc23b; 0xec97b9f0631ad3d7; 0x4d7e47b43d3e3772; 0x88748aa66fb43dca; 0x5d375fbeb30c806f];
 [0xb812215f322e8149; 0x46ae7f48fc58979; 0xf8e2e075757af8ae; 0x4d593fd6c68fc181; 0xbcf1f4e919955aed; 0x2cce5c55d96e96d5; 0x3b3336f7429a0071; 0x7d0e90503889a6a1];
 [0x964ea2b9d50e81e2; 0x4081cd7f8e3fa2bc; 0xd37e950e4a0f3fe6; 0x4da34194a1cd080f; 0x5b41d76c76db7394; 0x660fcf51e6e19987; 0x5d8a7ff4fd0c7810; 0xf8af4422cb680236];
 [0x2d791a40d262b925; 0xe01013b094c2bb0f; 0xfc39c78742b0c8b; 0xb0cdbeac2b040a38; 0x8df875fe3124f70d; 0x310b5d5b53c1bd07; 0x9d9ee6e62307ecb3; 0x3a2f554bc1d80bb3];
 [0xdd7447839ffd25ea; 0x2cd228f8303089c8; 0xa2232a9f56bc0576; 0xbdc5351b108e8278; 0x4b125be56c6387c1; 0xa9a10dfe4f1266ed; 0xa8719fade225b9b1; 0x37365e7a97bf0c2b];
 [0x9e41c861b9952b6f; 0x2d82088e61c08d98; 0x92102d5a281bec88; 0x9fb42e828cc8da6c; 0xd56db5c94ac5899; 0x789dc0943cb5bace; 0x16d632e9e02f8c3a; 0xe865d1cedb84cb51];
 [0xf6f87308570208d3; 0xe6ed761bec3adf0d; 0x40518d7a4a921081; 0x7fc65ad97810dc3f; 0x38abfed2819972b9; 0xdf25c609181cfd89; 0x5d131813087a1c79; 0x7f30c33b0928e28c];
 [0x609f5c5f4d098232; 0x4a279c7d5bcead49; 0xb7dfe5de12f6f3ba; 0x78ab26c0803d3c31; 0x5336762fa5e25a14; 0x51ea8872a52e6a24; 0x9cee32ebd6d8880e; 0x42397f1f07364d54];
 [0x1a1d26d03387d9c6; 0x1c3f51057e2ea3ea; 0xbc95ecd7c2872119; 0x97377a3b8a339127; 0xa4c31e49efc2ad; 0x595a5e92d5ac8d3f; 0xb0e1a9f0c87f7320; 0xe420b3d95c320f8b];
 [0x4c18acbe69f19c63; 0x2a47403bf8ce6aad; 0xa007fef55b3ae789; 0x57e5e5267513003b; 0x508207720e49c6c8; 0x2b338977f1894f68; 0xb6b33862a7a47f7; 0x17d013411eac8e49];
 [0x9189e318387f2d84; 0xc19e738c022993e; 0x5e89f2e4a4fdad0d; 0xfeeffd3f24c5f3d3; 0xebf201590b7b0342; 0x3962232228f36be9; 0x706d191277803520; 0xadbaa938f513934d];
 [0x74b668cce4659a5f; 0x88b57229714e146e; 0xfba5e0d7d5f1b1f0; 0x1333394375006b13; 0x30251836fe70f6e; 0x741034ca7e83611d; 0x3c8f8c36c3072084; 0x69c796de3d32aac9];
 [0xede3649eb26d2712; 0xd4bf4cd4a4911293; 0x442f23eb8bea761e; 0xd47a91b7a5a1e6ab; 0x808d0036a933b085; 0x5d2615ce0c0c0a80; 0xe22162b886c6a820; 0x836979ef6d8cdd3];
 [0x264d744670fbade; 0x3b5416245b39ef12; 0xb35a6f206df7432f; 0xedbcf966c1fb053a; 0xf0f8e4ba82c93038; 0x1710cf99e8af3a1f; 0x67e2fc14b73254cc; 0xdde16b0e5018cc26];
 [0xb4dc9ef8a3a6bf9b; 0xeb577776ed4de710; 0xeb127dc41f01181; 0xeb3555122edae6cd; 0x659472ff90f03362; 0xef84a6a66bb4c686; 0xa4762f6f99701418; 0xd7c63baa62d9b23e];
 [0x63ec3a34740e304f; 0xf730e920b249d78f; 0xa609a36bc96cdf26; 0x699b75678ba2ebb9; 0xdb1e18cd2e2e7432; 0x1993ef6d63089e99; 0xcbe2b8c88b8bb837; 0x5e1cc0b609efbbd9];
 [0x33d3b1e9c11f8f59; 0xffb31f5cd37d1bf6; 0xfd37380ce6b41943; 0x256ebe011e930781; 0xd24a96cf206758d8; 0xead680ee90706558; 0x104892eb6c05c8cf; 0x6200758e5d55c337];
 [0x26d2407623f3ff03; 0xcfdce2f96e5479e; 0xae10d48a5fc20607; 0x83c84fe34cb20630; 0x4d7f09f0ca9d6abd; 0x1dfd8f6e6fcd30d4; 0x9b565720f1859bda; 0xb23b0d7ca9208091];
 [0xdd0f23e69b6bd4b2; 0xf8280b40ac22ae51; 0xe4d5665bcf363d78; 0x85ae31ec513d1a19; 0xfdb0d461b79cb882; 0x85c393abd65ed9a6; 0xe2aa1f75543dffc7; 0xfcea25c6cc0af3f6];
 [0x3377b8fdc770e398; 0x57a794ffb2009a06; 0xd72aa5bf47c4a4e3; 0x271f354f157180f2; 0x28c0a26472967fbc; 0x24ebcce79652c11d; 0x754f396f30aeacaa; 0xf2e3b011381739d7];
 [0x46ea0429b6858312; 0x3197d4a483beecea; 0x5ffc738c77949621; 0xf9ed4b59fe71de6b; 0x6626d83723d7422b; 0x128fc01d0d7f17df; 0xb42b0aeaf827047b; 0x280f423182050a48];
 [0xe6dfd5abc2868a6e; 0x988fb1cdf9f9866d; 0x692a78e786fce230; 0x81682d3d6e344b25; 0x383aa22c0b442769; 0xfcbc05ab12dc0096; 0x565d7a4d3feb962c; 0xa2dde092b03bbe32];
 [0x2cd1b649d85530b9; 0xbac939cbb7d25874; 0xc096cb7817c0ce24; 0x5046f376a1d8e736; 0x15a5a20ba038abd3; 0x9508a004ad7f6c30; 0xcd5e4870234adf61; 0xc83910b81163b15e];
 [0xea684ea08504481e; 0x7de61abd8912eff8; 0x2f2d1dff92672b04; 0xdef573d4aa50386d; 0xcda484a7a8a1f256; 0x792228d09c981b5; 0x78958145ffbc1de8; 0x415e063e11e7665];
 [0xc2be7a1c752080e8; 0x991e0daed4b63652; 0x5faafe304a749437; 0x170cec013a1ce9f; 0xd86514969b5c9099; 0xf62890bed1f49617; 0xdae7cb16bb13d8; 0xa873885637721b98];
 [0xca883795d2dd5778; 0xf04e4d284e5103d9; 0xee0cca8fb3cc3bca; 0x8097baea3e4539f0; 0x31f5e2b50c7623e2; 0xa68fb9a547d4d2e4; 0x1b5b160fddfceb8f; 0xd03129fd063c596e];
 [0xdfa696713973ad5f; 0x8caeb5aede9b45ba; 0x671ad5a80d0b56b1; 0x1f8549e4864b1a88; 0x54daa22fa44bb90d; 0x92f0f7aa83ec9b16; 0x91d28e9f9f3726d0; 0x3b9929d48abfd9c6];
 [0x47160a05b7a8d455; 0x8f2823c4f5caee90; 0x9e11c35b597f77da; 0xbb841b8c1c101e03; 0xdbfbdb5b9445faa4; 0xd9a29515c29299a9; 0xaacae119188e52b0; 0x6666aeddae066d24];
 [0xc8388d15d3e3b3b0; 0x476d6b2ec57041df; 0x58e3a20165aa613; 0xd1d9e126fb3b3cad; 0xaaa8e4f72bd61b77; 0x50ab788fa3390d95; 0x6143273881276a38; 0xbfe101dff197e710];
 [0x62b526963c2a43c5; 0x81faf051ddc029b3; 0x38af71e974122669; 0xe85f49bc2f8d10e7; 0x5a04b25089d730fb; 0x4b1b3d6acb469f28; 0x3c031bb7268aa77a; 0x9017e06996d28103];
 [0xc93f6471ece561ad; 0x3036450e466d7e24; 0x5b7177ece2cd7579; 0x31d7966f42c2cd73; 0xc36f767a967fe08; 0x6dd9e96c58b413fd; 0x5bae504010fc3705; 0x1ffc7a46eae8512b];
 [0xe2a431631ce54e42; 0x933594bfea708a60; 0x2603b830b15eaad7; 0xac81d1919007e41b; 0xa71f490ca91b7683; 0xff05a80245740cc4; 0xd3d384774aaef928; 0x51e8f0957e7094e7];
 [0xadde2c7d40439b73; 0x9f02a43d820dd361; 0xf09ce0d2850765af; 0x2a1ac8f8e480993b; 0xe9c6a5d7b8a3effb; 0x17af71d28132b68a; 0xc5a4a6c748532649; 0x1545194c6cbe92b1];
 [0x6516f86986704b35; 0x3f97d4c83f5da773; 0x8b48ecf4194269fd; 0x1723b537b1cc6c7f; 0xce41173f8d245279; 0xfa3e2249044cf0ba; 0x15f5f30e411fb45d; 0xb572956c6eea8dbc];
 [0xc51b89b03a8dfe93; 0x823b66131c050504; 0x828aa306200e1e6b; 0x4233cc1a0be9143d; 0x235eaeffcae794d6; 0xa034809426e191b2; 0xee80d85a4d7f68b2; 0x9d6a3d280170373f];
 [0x3d1b3cfdd043d340; 0x1668a761fcf04d92; 0x474c69ec0e83925d; 0x31e5720621c3e7fa; 0xe9a24716664ca4ee; 0x267be22cbe5ad13b; 0xe24940a92bac3df8; 0x93c125e4a1c3dc48];
 [0xb88b31a253c24eeb; 0xf8390a5ab1da9e62; 0xf83c108611c606b2; 0x29fe29d58e8af535; 0x47636445d48c2c17; 0x5a3e8c12d7823895; 0x14ffa5866c13ed14; 0x79a44a45da5dda73];
 [0x5ed76f7e6ec1cf8d; 0xdef94bd2df73d49e; 0x2fc261db441f0443; 0x817558a1c6622ff6; 0xee4a141e4b53dd68; 0x804b29f76c747e7; 0xb6aa27a108368425; 0xe619379988349a26];
 [0xe1d87bd979ee49be; 0xd046b3ac43273928; 0x4e8e2a017ce22a64; 0xe416742713b96ad7; 0x109504e2ff25757d; 0x9567b8d703707dc9; 0x3372335a52db4097; 0xda951d36656cf0ca];
 [0x5fc29ac9b519fa18; 0xa438a2a99102b3db; 0xc7f745ad087ce79c; 0x4b2f489f59e90612; 0xef59bf4515023ca3; 0x384e1694847bd841; 0xc1907cd7abd8b1a2; 0x2ef01c765d41ca48];
 [0x3403df4cb2f7591a; 0xde4c5195c93908c; 0xa9336c24c4dccb5b; 0xe5a02042d4e087c7; 0x598cab5596781e0a; 0x5df935826676db06; 0x9f122edc94bc0fb; 0xe28546ac8688e744];
 [0x29b903e313b71586; 0xcbd1ec75e52329c2; 0xc600ba7537eb90a6; 0x4b54513d53c05335; 0xc04b21e31f847d97; 0xe2b1156c37146f1f; 0xe6179643c83f91a0; 0x801fbb78d59e1e29];
 [0x27cd84962068acf5; 0xa40eba2c31b460d; 0x1367ef725e026afc; 0xcf767f290717984a; 0x8842cd27a4245f06; 0x28feacceb0bd4876; 0xa9f31718b6d448ad; 0xc31ac4079af1d5ff];
 [0xd0125dac7f6cad17; 0xed9405bf0a868b0b; 0x36de820fcb512dda; 0x843ee02a9bddf8ff; 0x34dbdf92e0d881d0; 0x20834dadebf09fe4; 0x8e2b0e05cb3a4c79; 0xdc7ffe09396d56bf];
 [0x99c0e0c0b376c48; 0x3ab72d9bfa4ae304; 0xf75d43eaac467afa; 0x1a59421fb7213301; 0xd4564a611c3f75eb; 0xbff3699fe9601ea5; 0x562c6a865cdb897b; 0xd4c9fae4a03ae7a7];
 [0x8d4f7b6237173a1b; 0x7a134b8c375018b8; 0x8f5a82b7624c7dd9; 0xda82a9ce84c5c6f0; 0x8d0a545db640383f; 0xf4ea436b1b38e2d3; 0xa1c4068e6e1bece1; 0x9991ad9f0b2072ce];
 [0x5d290d1f68c9a797; 0xcf06240bf4017763; 0xf5fe46f49993f037; 0xd3c14ba9ba0f1605; 0x1019812afa160b0c; 0x5c595879221ab3fb; 0xcf3cfe15234e9b5; 0x67e0751a1c1ef9b9];
 [0xc56c9aa3d1531fc0; 0xce76cdb2f861ffc2; 0x46f0939c3bd7084b; 0x5f0fc92b0bc9465e; 0x48640eb9fdeb2139; 0x640dc4faee37fe8f; 0x4cd5a331eaa9e954; 0x60acca7978da2f1d];
 [0x437787d99aef020a; 0x739393c59464e5cb; 0x2f3b5a02d2305e8; 0xc0a93f9950b8a6de; 0x6eba1e0ce0d3d738; 0xefee7bdcdfcb8758; 0x35c61c13fd5dea07; 0xfa5e5125127a51c5];
 [0xee30f986742ebc1b; 0x5e087baa0f7ff892; 0x3d10f6d63405aa1a; 0x7d652435c658addd; 0x28a67e46d263c8fa; 0xef6dcbf188eb0886; 0xec6239dfe14bb142; 0x4b32b290ed7a5f6c];
 [0xd87b8b475061c3e6; 0x45c6d36bb67ab19c; 0x620db13a5fe42189; 0x3f7893c1ab196c12; 0x47f649193cc8ae66; 0xb99462ea899eeba1; 0x1077bc166e48ea07; 0x943fb506d0d34108];
 [0xe9e875684b2ead82; 0x3ed0ba5c6c52e5e8; 0xb7cfb970e5665eea; 0x5ffe0945f0e12635; 0xabbf71b3dbe89e9b; 0x1555488b57d694d3; 0x640ce4d41a38210e; 0x700eee91b4655fb0];
 [0xb9dd728244edd4c2; 0x2d1b13a79206ea4e; 0xccad887df1ce3859; 0xe05e68cee5f3149d; 0x72f2dcd07e066f46; 0xbb2099d7f50a03d5; 0x103be170574f68dd; 0xc4336fd2afb94154];
 [0x44419357f228bb54; 0xe9e0f6b1bb309f3b; 0x6a137443c42e1699; 0xabde73c746d5d48b; 0x80a334a44600b2ff; 0x75701ab52b3b9030; 0x11e8059ef1d2118c; 0x89b23d3c805978fe];
 [0x26c15466b95bf19f; 0x7933c7ba87ef4b9b; 0xdddeec86e5ccd325; 0x2f402258aa7ced9e; 0x9a13851ccd190583; 0x7988651aa0019899; 0xada9da187d555615; 0x5b572fa42d78f38c];
 [0x10724bc825089f79; 0x12a2ce6aa481f3b7; 0xf9bcf7fdc8e93cb2; 0xae99086c9fcb54e6; 0x175183c872c64409; 0xaa4cc8172efc4656; 0x4417fc38700b4418; 0x74f15e07e57862b8];
 [0xbcd3e869420ba27c; 0x149b6af5dddead50; 0x790a327b63be6cdb; 0x8a47e3113bd6b4a8; 0x56daf04987f1e5b5; 0xa73f305ce249256f; 0x23a106875ba45591; 0xbcb77b3851b9035d];
 [0x3d3a563dd6e0dcfa; 0x291255c970b485b5; 0xbfeae6f483451eaf; 0x64f98b306a483622; 0x87a30382c5808fae; 0x95b8b8c28de1dfe5; 0x89b7999be116294a; 0x45d0238f7f8b5ff];
 [0xfb1cf0f35a30d429; 0x5f54d6d23801304c; 0x6b0a40e41505fe68; 0x10ef59da810089c3; 0xad771846f768ff60; 0xf08c8e088b585f72; 0x4bdbc75f5cea82f6; 0x20891050870aa59a];
 [0x21f316327e614416; 0xb3c45919a525901e; 0x55a42280c8e6a463; 0xc9640b5d593d7b49; 0xc3a9ff4b073d66a1; 0xfbfd9a3163162078; 0xf28708282f822816; 0xd5b1d7ec7b7211f4];
 [0x42e02517c7c5a81b; 0x19e83bc139b58132; 0xa5d4158881a53b28; 0x2216f9144a9dc822; 0x46d312bd32bdd298; 0x3075a660919a8e76; 0x1d2751186dcb71e4; 0x392822de1abb2590];
 [0xb143a924f59d802c; 0x114123f389dfea01; 0x10c93540ca0709b1; 0x109a7e9728ceb6bd; 0x8099c7f15ad729d; 0x94feec8cd9a50bd6; 0x30cc897cb811df1; 0x60d7f6b34167dabb];
 [0x5e27c3c118a5ab8a; 0x2f256b5fc5cbd71; 0x18239c715cd5c7f1; 0xaafc340dab0f41fd; 0xebd3aceb237db26; 0x4824b23f3acdc1ce; 0xabd510cdd21f343b; 0x450055dccd41faf];
 [0x77b9fe68e1df8ac1; 0x91128add8ff93b1; 0xb84da4dbeccf790d; 0xddd42a611301a33; 0xdff4ea55a2ae973f; 0xdc3b0eced820b954; 0xdbde0998a751020c; 0x65f991fe3ee00ee2];
 [0xdc9df4bcee1e40ca; 0xa27c746a2d08164b; 0xccf3fea64abbc367; 0x282766e15ff51a6c; 0x15e1a0833ed69839; 0xa4238ac1b32104c1; 0xfa3a7d2aaee9eceb; 0xe83f5411505a9bbc];
 [0x932a154d3a5c70d5; 0xe662a2ec22a62df3; 0x6010d9a1738d4e9b; 0xb191e468d5be3504; 0x3e0c46269f8e5bc9; 0xbe178289405ed478; 0x994848817753af25; 0xbe9f3a5eac8f6910];
 [0x85320bbb92c7aa5b; 0xff6a16243e0c12c6; 0xe02178037e007250; 0xe10eb803f16f39c8; 0x49879a476a3dbf43; 0xf7c2b4181cb3fea4; 0x388624e46c74c1a9; 0x77b9e75006804c9b];
 [0x223ad78ec50e76f3; 0xea81674ca6388c7d; 0xd8a9fb53570c27a7; 0x929a10124b6181cc; 0xaf672ace2ba1c883; 0xe19f92106bd5e2f7; 0x48a9798050d0b24d; 0xaf942e242af801a3];
 [0xc62aed9abaafeafe; 0x5f37c752e971b6c5; 0x2ac948a18bfa2bc1; 0xa3389349ba01e053; 0x5d2fcc987ce3dd76; 0x7ef41e085803dc48; 0xc014f35076d73664; 0xfee186031342bddc];
 [0x3fa0889f45519c29; 0xae4bf7ab1bc50bc3; 0x64f955fa6416e0a9; 0x6351cea4febba6bf; 0xe80fa7f92aeb259e; 0x9fbbd57caf6795ad; 0xc7f7ef0dc2313fc9; 0x9070cdd4fd12ba91];
 [0x3f9dfdfa975f5b82; 0xa5a56bf1479d5a9b; 0xd1fc3ac49ab8eaeb; 0x7d814caa558cf1d1; 0xc4fe286263fcb019; 0xc165c7af779324f5; 0x4551b835f610315; 0xae49d4132f6bed28];
 [0xcd838eeb93e1f096; 0xdb4a6451a8153b62; 0x6f3c56963ff82160; 0xf98555f0f3bfb8a4; 0xe1e93132713a1645; 0x6a10afd0ba731d27; 0xeedb3d48e477a7f1; 0x31c7fb86a5eaf8d7];
 [0x2b8ddb885c169f22; 0xe1ee052205a5cbd0; 0x8f1b72d2bb55ea53; 0x58e80a3db58f97d1; 0x76a5edb25e6f2e93; 0xd1ba7fe043759566; 0xe14465b8984964ee; 0x59ea0d096d63035];
 [0xc682c363b59a6969; 0xa556d05609efa475; 0x608dd720bd0bbdca; 0x8e352c41540a6e93; 0x2e5bdfe8615ec2ba; 0xc9cbb4dc4ea45a5f; 0x6a752971fb88cb73; 0xf9dd425dbb920018];
 [0x6ca9238931cb08e0; 0xaf02b792119e333b; 0x223b6d49ef62fd21; 0x730579c6d2d78d71; 0x75da546073bd5320; 0x4d40d36824d46462; 0x3c015a6e39362065; 0xc086a29fa487cd3d];
 [0xc126aad601f14de2; 0xaf06e9bf2afb95c1; 0x7223e574ebe0819e; 0xfde12b9944034e62; 0x772ccb85e0e11399; 0x35315de1a9c56d26; 0x523ae72acb0e905a; 0xac436bdd056cb309];
 [0xa5962d013903f820; 0x850acc2512281d1d; 0x88805fef8ef3775a; 0x89fe863a0888468a; 0x47aa29d2e90bc264; 0xa6a7170a033f006b; 0xa7118e8da5a45e87; 0xe2e50fcbf463a8a5];
 [0xe2a41dd676d84b07; 0xdd0926c3c47fd730; 0xb3e36fac505524d8; 0x1ed0da1922e9a20f; 0xc31ff7717bf199ef; 0x6b9b426bb4f65729; 0x6d1e9e2d32235bbf; 0xe311df0e5a548091];
 [0x8f10f718183eb717; 0x8c2cb62ccd00031c; 0xf7b1d8e925f3c2ba; 0xf20fff23d5ba75f9; 0x5e6d4d8500c34359; 0x70a5c245f4ebc24e; 0xf52430cd31559908; 0xc7f1b89db82be7d5];
 [0xb69392669ad98175; 0x10fa1bfc99fef32f; 0xca57b72a6fc7486a; 0x25084d6404e42b85; 0x46c63a7f10f025e8; 0x3783517b0b500f07; 0xde4000ff53329d7f; 0x439107461837bd62];
 [0x147c15b4ce31a81b; 0xe10f2c13b6804f0; 0xfb5ef798c575c8a6; 0xc682a05cec69cd51; 0x6287002687f73452; 0xa2a94208dc8ff407; 0xebbc7ccc1b972e55; 0x9825f5d4c7086423];
 [0x704f435973601784; 0x7156175a917ed7b1; 0x516244866439d2a6; 0x2544eafd706d7bf9; 0x7968fda2b9d6d79a; 0xa48f6f4cbcc1ec19; 0x8afdb4bcfc90afd6; 0x398739e646e134fa];
 [0x9562ad5da78c1d79; 0x41b442ad8f8143e9; 0x8c81601db0cb56a4; 0x24af6159e0b136c6; 0xd2ecad8342c11ed2; 0xfdd29e3b9c7c3c2c; 0xad369340dd998f5; 0x21ca40e3efab3392];
 [0xdb3a2fadfdfc85f; 0x512ddb2233e27ee4; 0x8ed03c48575e8b2e; 0x4149ac1b39b8c522; 0xd4bcfdb63b780d54; 0x4c03b4770c53238a; 0x4e6d8a0cff71cfec; 0xb2933ba97717e52a];
 [0xeb5e265dac60302d; 0x88f0f340306a981d; 0x75755a64de6bd36a; 0x6d72313daf65ea88; 0xe8364cdbef05b1ff; 0xad74f2b2fae36a24; 0x1f840dc176a550ad; 0xa88eae1e70cb1bdc];
 [0xda0a6e7d3b88d23b; 0x16dd1cbb514f3316; 0x76700a313b8ef63c; 0x86fe179a1441a922; 0x2433dbc4022bba1b; 0xc1e60ff1757a4e8f; 0x10017ffa2ff8532c; 0xfcef3f9bf27c90b];
 [0x339f9f23b739823e; 0x64d0f0593060f021; 0x44beb6a80babd527; 0x57df6f6f6a576fd9; 0xef87f9b54a4f3cd9; 0x57184ffaaf6df42f; 0x52ce6a3bef2e87dd; 0x1468d02f7440aa55];
 [0xb6dd04e57c2feaa2; 0xe049ef3c76fc2dc8; 0x8c434776ce3071a8; 0xfbc882764af5d701; 0x7e09aabf0d73be23; 0xb854428e09a873cf; 0x890e8cb42a62ec4e; 0x80b73a76d17424e3];
 [0xc3e02d51caf3f0a1; 0x49d6a67a24dcc188; 0xb04f98dae59e15d9; 0x10b8dedaeea90b4d; 0xe9bdafca5401af9e; 0xa615ffc22c902f46; 0x641ced489c03bcd9; 0x936b185fd2b405ae];
 [0x7cd8864fa0c7c085; 0xfc45dd42a442441f; 0x7dd4429492690a2d; 0xdb752d5d550d8416; 0x532f071681a74577; 0x2e4e9f837bb912b2; 0x34e6c9f7c3e82cbe; 0x9a8d3c0bd8831228];
 [0x87458c0b2cd7c885; 0xa5c7225a291bd45d; 0xc80f1828c280373f; 0xc3b8197d45d1ac52; 0x7fbbd58d7a05e0d9; 0x9a17cea7f83d9720; 0x4934b59ff75c5df6; 0x9c654f88da72d8ee];
 [0xd62995940bb7cfa8; 0xa2dc38d66073bc02; 0x6acb5cbb0e3b527c; 0xf439248585d69eae; 0xef24f7085aa195d5; 0xf7bb779c1b59ad75; 0x33fd247c625feb22; 0xd918635fb0cde024];
 [0x23c2dd59aaac4f1e; 0x274dfbb69e59a51f; 0xf39398d88f3957b6; 0xbab1950eb8c5b7c7; 0x3aa5075f47eea4c0; 0xd7bca74ce20b8598; 0x662c7aa2ac56fab; 0x5754a7c295655c19];
 [0x7a449bc5fdce6534; 0xf2880953148d199a; 0xca682d63d76fff21; 0x951c6a0d12bd46a6; 0x67dcda678a1fe32e; 0x9347cedd1d425e3; 0xf884304b099ef823; 0x1de488db0a32c3c5];
 [0xfabac1ec14fe9826; 0xa64afe9802013443; 0xd79172661d0d3ebb; 0xf74d6eb0fa0b0d21; 0x176ebe26e0882547; 0x764fecad41d61f4f; 0x726066b2c1afdc48; 0x80d1d05d49f4d13f];
 [0x40be8a60621f3b0; 0x83bda7aeb3229fad; 0x37b08f37a17206fb; 0x8d9befc70fd664a6; 0x61a51cba1b6b84; 0xabe92b1996ac5cc0; 0x45d708fc11d5e2c0; 0x35881776d4cd79bb];
 [0xdb7ad424f649249c; 0x99ecdd8c4fbc84f0; 0x74bc3360ca8e021d; 0x3736f46ed2ef05b0; 0xc3d976537019ac31; 0xc1f58f22a0d288d2; 0xca77e1e7b3db763a; 0xe8ea2c9fd6ce9a9d];
 [0xc58e467112db170; 0x21fbf68586492f3c; 0x8f2abc26991466c4; 0x181fa74ed04cc4f0; 0x8a3a6785434e46a5; 0x964fd9cdfd662146; 0xc49cf1a071611b9c; 0x235466a68bf71094];
 [0xc1508d63421bab8f; 0xac341c99f5dbd45f; 0x49625e9e7801e0da; 0x93f09a618ad51054; 0xef74657a4041945a; 0xaa3097d2a66be82e; 0xa41b20e7a8f44db1; 0x438fa4e3b185b7a0];
 [0x2566739a1f27c1dd; 0xa48eef3d4afa0356; 0xe245d0d3a15c9670; 0xb44049a327a05b02; 0x20e42a25d3e0711b; 0x21b0f794c5f344f6; 0x8a8134d465ef2376; 0x667b073b9e1d15a6];
 [0xcf65a1c1a6f8f5a4; 0x82858c7bcef738ee; 0xe74ace0f82572859; 0x2a9049d51eb6560a; 0xbdbee5c8cd1a721; 0xcdf2efcc7f3a07fa; 0x3d50790981661070; 0x3927912f7ce0d22];
 [0xa3091c04f5a8da7c; 0x2583350f842af470; 0xee5b08ef841506f7; 0x43aebdb09a880444; 0x435817bdcb34e33f; 0xb86ec034f1e4c425; 0x1cec416b8da1ef47; 0x9e43a2c662b2ed1e];
 [0xddf7973c634644ff; 0x82a1c34e6b5030d2; 0x5423a4fbae476862; 0x3a03f015eabde6a5; 0x2d474baa7ab5de07; 0x55cde33b4ed0bf3b; 0x3672a0725eb98726; 0x8de0eafd6d91d00f];
 [0xd2ae64b53aae4cff; 0xbbfd41e97a3a8abc; 0xe0e833398279b06c; 0x9382babce2e3dd65; 0x543b7c9f92c0f710; 0x9e3925ec1e02cea6; 0x158257946557966b; 0x2ff3a69128ba32e9];
 [0x3e341877152663f8; 0x66af511f06de68fb; 0x51b673c2ceb4a153; 0xf1dd1c3ff9911c00; 0x402d52fcc59fd22b; 0xd1a7eabbcd8acd2; 0x74b7ad8dcc069782; 0x12e863a1d0751bfc];
 [0x3270bfe39d7a0c13; 0x132a91d669de90b8; 0xc1cad403eafac95b; 0x8bf6e45b70bbed10; 0x676030870919b6a2; 0x8e868061c57c56d4; 0xebc165ef1686b421; 0x54b59a3d690669a1];
 [0x7c82345ffe4394aa; 0x24f65b0fe8405ff; 0xdc97249862a11743; 0xe25fc2ab3c960d0e; 0x6aec6b0f8dfd10c6; 0x77d298eb664f627d; 0x467c921b40c3c803; 0x7fe90f09796080d7];
 [0xdbfc3c84a458adfe; 0x93a7aa0ef4d400a2; 0xfe045aa9e5af8d81; 0x34999c4c3f5a348d; 0x868a11d71026e549; 0x99d860e9e5fc8b6e; 0xb4a6f68693a83737; 0xb7f8f647dc2c6a7e];
 [0x81b31b3a0d368cb4; 0xa1c527d124f1a516; 0x4c52c2998eb4170d; 0xc496734d162c86ca; 0x47a469c4b66f9ecc; 0x1ee2f2e7c676cc38; 0xf7f4f7a28b04437; 0xa7c3357af10b931];
 [0xa51a9965ad7b0a38; 0x11d63b7851f29986; 0x27765e098afeb3e7; 0xeb3c2b27992f057b; 0x54b18dd103ec6c85; 0x1dde5045a5b76798; 0x503911cb7e1b3b27; 0xa9d6dac10b05ab36];
 [0xdc561e0ef0b557e5; 0xae3e34d9d41e0fa9; 0x79405fe6c3883b5a; 0x84376c6eb60a9c84; 0xae2a3ee368be213a; 0xabcd525a5e81618f; 0x8120dcea9f3304a6; 0xa790821dc46eaa2d];
 [0xdd2036db0ca02a1f; 0xad931d4a8d7a0efa; 0x7595b650f48d6dfb; 0x6252bca2a13af25e; 0x81ceb87c8b894bf5; 0xa5cd2743249ae26c; 0xc32892ca36687777; 0xea69581c3f5a72e4];
 [0xbe651e7267fed5d1; 0x3ab286d7640365b2; 0x60ddaa8a50cfd827; 0xd4229bd0531d94cd; 0xbad18b03c81da231; 0x9172663598c2e040; 0x4805868a601b46a; 0x8f83e2737d8e9b72];
 [0x7e3bfffb9a7c8742; 0xf6d1cd8c6556ddb8; 0xd3604cbfb5434192; 0xf83a49f4d097c99a; 0xd93754c154ec4170; 0x6c3171f976d095df; 0x1e4466c0effd84e5; 0x99612d5657c4e21];
 [0xb6928f76633ce32b; 0x1cc8df955dcb496f; 0xfa0fb0782abe34dc; 0xc877330eda52ed6; 0x80ee3b8691d0beab; 0xc9eb894d515d0386; 0x77c4ea1f83385d7c; 0x41823c4fc502bab1];
 [0x7d4bf6ba78c2116c; 0x5821feb7c66914a5; 0x9019e1a2074a68de; 0x217f6dcaae40a592; 0x98b6d060259795d9; 0x55864e513df123a6; 0x5cbe584516809db; 0xb6e63dc29a613cd8];
 [0x577e1f1f4ef96a28; 0x55bca9ff820cb4d4; 0x83c5e10fd29c3142; 0x868ba33bda299faf; 0x6e6c8c314fa40afb; 0x44f1e3e0210af2ba; 0x4e866f6f1b93e2b6; 0x8ca47769840e2657];
 [0xef500c1f058baaf9; 0x408f309984806831; 0xf485a9831dce0964; 0x7c3772ffd02f72c2; 0x2615ea75760bcd70; 0x44bbecbb33470798; 0xe79bb8c3793abea0; 0x5dde16eabefd3f28];
 [0x7ac65917b0ac2b27; 0x921456ee4dfcaea8; 0xecc211581659018b; 0x35ad808ff7990b7; 0xa5e9d880e2e51f7c; 0xfb39ede903e30cf; 0x4ad3077af18a2df6; 0x9354b60b8d5559fd];
 [0xa001e3c417ce27fa; 0xc8680b1b28de334f; 0x600cd5db65402d1b; 0x3e9ba899e8ac4b9a; 0x76a7ef889f5df4cd; 0xc7b434eb4fa9daf3; 0xf6a9f72069f1c267; 0xd64996839deca7e];
 [0x3adeb6245cfa347c; 0x4ce4a076f79e70fd; 0x914a31bb6b84df5b; 0xa8d7be635062bee0; 0x24ee21274a8ca2d6; 0x3cd6f424dd5fe3c; 0x4f3673a3ec64b7a9; 0x78de88973e7dd3fe];
 [0x71342d15ed498bf5; 0x16f8a3abd8d965cf; 0xb325d39d30ea6db7; 0x8157ec835ea9891; 0xdc6dbab5016936d6; 0x99caa3b8541a7b32; 0xa153eb48054cd9f8; 0x90b9abc18a025db9];
 [0x8a9e628456a04581; 0xebc79b70b4ed757b; 0xcb61f9099865ec6; 0x466fb9719707993b; 0x96cbc10b1160508e; 0x21d497440546e225; 0x2af2b2c9f89cfa78; 0x6e04cd9c4f35d92c];
 [0x1ee9d6f25331500e; 0x4a09eb51f53b52e9; 0xf23a759eba419eb4; 0x785f3396b6826670; 0xf60b6ff620b39f35; 0xc5cf0946ef3d4d32; 0xcd9259793cc821cc; 0x8c99bb1e98e73c75];
 [0x4493ea883212e6ce; 0x1b0c1afe8401afc3; 0x18e7718972b4eb79; 0x5fcfcad0ee60f327; 0x8b2415f96f0e9412; 0x26a6144621c2f269; 0x8036e3e8475415d9; 0x6c1421daad011346] ]%N.

Lemma draws_ok : map (std_block crate_key) (map N.of_nat (seq 0 315)) = draws.
Proof. vm_compute. reflexivity. Qed.

Definition drawn (i : nat) : N := nth (i mod 8) (nth (i / 8) draws []) 0%N.

Lemma drawn_ok i : i < 2520 -> crate_rng (N.of_nat i) = drawn i.
Proof.
  intros L. unfold crate_rng, drawn.
  assert (D : i / 8 < 315) by (apply Nat.div_lt_upper_bound; lia).
  rewrite <- draws_ok. change 8%N with (N.of_nat 8).
  rewrite <- Nat2N.inj_mod, <- Nat2N.inj_div, Nat2N.id. f_equal.
  rewrite map_map.
  rewrite (nth_indep _ [] (std_block crate_key (N.of_nat 0))) by (rewrite map_length, seq_length; exact D).
  rewrite (map_nth (fun j => std_block crate_key (N.of_nat j))), seq_nth by exact D. reflexivity.
Qed.
