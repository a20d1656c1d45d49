(** * Test vectors of the repository

    The files under /repo/tests that src/crypto.rs 964-976 includes, in hexadecimal. *)
From Coq Require Import String List NArith.
From Verif Require Import Base Paths Codec.
Open Scope string_scope.

Definition of_hex (s : string) : bytes := match hex_decode s with Some b => b | None => "" end.

(** tests/ed25519/ed25519-1 *)
Definition ed25519_1 : bytes := of_hex (
  "8abb8f3c8d40df4d166c8a874c4e809a0e3ed768dd96822d4a09cb38fc4849a0eb8ac26b5c9ef0279e3be3e82262a93bce16" ++
  "fe58ee422500d38caf461c65a3b6").

(** tests/ed25519/ed25519-1.pub *)
Definition ed25519_1_pub : bytes := of_hex (
  "eb8ac26b5c9ef0279e3be3e82262a93bce16fe58ee422500d38caf461c65a3b6").

(** tests/ed25519/ed25519-1.pk8.der *)
Definition ed25519_1_pk8 : bytes := of_hex (
  "3053020101300506032b6570042204208abb8f3c8d40df4d166c8a874c4e809a0e3ed768dd96822d4a09cb38fc4849a0a123" ++
  "032100eb8ac26b5c9ef0279e3be3e82262a93bce16fe58ee422500d38caf461c65a3b6").

(** tests/ed25519/ed25519-1.spki.der *)
Definition ed25519_1_spki : bytes := of_hex (
  "302c300706032b65700500032100eb8ac26b5c9ef0279e3be3e82262a93bce16fe58ee422500d38caf461c65a3b6").

(** tests/rsa/rsa-2048.pk8.der *)
Definition rsa_2048_pk8 : bytes := of_hex (
  "308204c0020100300d06092a864886f70d0101010500048204aa308204a60201000282010100cf8daf39213558bc45defeb6" ++
  "29b99e09385b4d77b1cfa7ff3281c71ed4da7728f140430ba41ada23c075360b5c98b9ab93c57844de6349323a6418d794ce" ++
  "2f0d36bf6f2c4c63c6783c9b215d5f615c5095c3387b728e079f6849e446899227d116462daceab6cfe38854057d1d650a22" ++
  "35da05945c7a2a2de598f0419a72ab82bd4fe15ad1ef467c168f5ce6c09a8ac90d421e52a65fe888a0b5541c349762ec4d81" ++
  "1e4c0c6b32949190a58ce0ce8a8ea283bec6ac699591ac63e9451be6f64d6f734594195754ab6b5af6527b43884f7756df3e" ++
  "41cbe07f147a3091ca5523c0115c73cb39c99a494608650690016f6c354eed5675c8483e413b7c8bf5f1046f020301000102" ++
  "82010100a8d24b3381f27d71eeb75aa15b4112edd6fc54ffc60eed4c238df223fee890422a31a61742ed607ff21ca4d00b0a" ++
  "6303cf97b0a2fbecf06dbd970ba9d6ecfad299b48ebe0e889db7d13c31a05c63ba0e06331baf35d79715af63631d88eaec1e" ++
  "232b041e01709f9a289a8738647f7a05a79de629ee2aa4425eddce96de04e5c163a8c007bcb7190f669b50e778f613367114" ++
  "97f2a82953f6c0b8c655a08f8d68430cdd060896ac3d9570baba25d2506d3a4904ac6afecef681de383f5a8b78ea8bed8add" ++
  "994f154de7645ce04f22dbf712b061c4948c6213859fe33f46617c7a6dc7868f76eb5cd425ab579f3cd86b856e4c75e830ca" ++
  "cce45174e47c8f9b28b102818100f34095c76570a90b4788fb23caba364ce4e1983eb9d34fa9925740fce15445c75231947e" ++
  "77c857a9170f2231641731d2bf959f03a9306f5530b6b380f35aedc1885c0af80249b0e9cfb2ee365ec3cfa11d9f04cce6da" ++
  "4d459c54a7687ea23ec5358ced9de0db5b9af732b2cf0ee933bbb799379b560711b69eeb613eefbab38702818100da6e2c1f" ++
  "702b506c31f96ea6f2e91cdb4d075094059e1ed2ce89609dc5ad83ecfaa209b20bb172118507fd01bf57925d557d53801b88" ++
  "211d8c0b5d60d4fa1b37d05d90c23fb4f60072d20e5223500b00edcc0f39d0767075e89a0e6be942cd905fda204a4299b6f7" ++
  "de477b6db74bbddbc06dfebe3a524dc35c05045cd19e31d902818100b7fddb0cd662afca73525e3b8564f21b996836030405" ++
  "9c94f3b701d6050dfc35b6aaffd9e4fa69abe1603609cbde6b76302998fc68e5d4e04817799109017722d2e463fb91a771a4" ++
  "78d0abb3fe5bf7d9b3110bcd7cb4148c99a1c27a9c86561a4ed60909490242b8e54fb8c63b4e132e62c206b87d0a9dd05746" ++
  "4ce910e5545302818100cc0911ca241b31ba7f4c02228cd1581539f4d53e0fa94e1d98b416be09c335728e04028e8001b70d" ++
  "ca7855cbe61245344e010d98a31f1bdfdfcb55e477cd50d3681d9e74f4d172e1a45fb6e4defb8bebc8354f1bb03092887148" ++
  "46a46275f65320563ec75f42faf8ba7787424b6fc2df9cf6a278cb3dca49ec90fb2c40da46b10281810096e19226b7f1d136" ++
  "5c825398d52bfb89b6c7e5cb6cb5fa5047d023aafaa1d2437619f69b25985e6dd9d215d79d429aa0bf2de251f5c202a8a545" ++
  "137c54a8ade3dde6d5e1ae2c78360acff21f5a198f3b958ae5bfc1ceae9a6d028388ff9873c33c3b66a8095e4a21db95c189" ++
  "8e8ba65e877e780d3ad60f7669dc91adbceec58b").

(** tests/rsa/rsa-2048.pkcs1.der *)
Definition rsa_2048_pkcs1 : bytes := of_hex (
  "3082010a0282010100cf8daf39213558bc45defeb629b99e09385b4d77b1cfa7ff3281c71ed4da7728f140430ba41ada23c0" ++
  "75360b5c98b9ab93c57844de6349323a6418d794ce2f0d36bf6f2c4c63c6783c9b215d5f615c5095c3387b728e079f6849e4" ++
  "46899227d116462daceab6cfe38854057d1d650a2235da05945c7a2a2de598f0419a72ab82bd4fe15ad1ef467c168f5ce6c0" ++
  "9a8ac90d421e52a65fe888a0b5541c349762ec4d811e4c0c6b32949190a58ce0ce8a8ea283bec6ac699591ac63e9451be6f6" ++
  "4d6f734594195754ab6b5af6527b43884f7756df3e41cbe07f147a3091ca5523c0115c73cb39c99a494608650690016f6c35" ++
  "4eed5675c8483e413b7c8bf5f1046f0203010001").

(** tests/rsa/rsa-2048.spki.der *)
Definition rsa_2048_spki : bytes := of_hex (
  "30820122300d06092a864886f70d01010105000382010f003082010a0282010100cf8daf39213558bc45defeb629b99e0938" ++
  "5b4d77b1cfa7ff3281c71ed4da7728f140430ba41ada23c075360b5c98b9ab93c57844de6349323a6418d794ce2f0d36bf6f" ++
  "2c4c63c6783c9b215d5f615c5095c3387b728e079f6849e446899227d116462daceab6cfe38854057d1d650a2235da05945c" ++
  "7a2a2de598f0419a72ab82bd4fe15ad1ef467c168f5ce6c09a8ac90d421e52a65fe888a0b5541c349762ec4d811e4c0c6b32" ++
  "949190a58ce0ce8a8ea283bec6ac699591ac63e9451be6f64d6f734594195754ab6b5af6527b43884f7756df3e41cbe07f14" ++
  "7a3091ca5523c0115c73cb39c99a494608650690016f6c354eed5675c8483e413b7c8bf5f1046f0203010001").

(** tests/rsa/rsa-4096.pk8.der *)
Definition rsa_4096_pk8 : bytes := of_hex (
  "30820942020100300d06092a864886f70d01010105000482092c308209280201000282020100f75fba089981ceb6fa383497" ++
  "3ef54a87d215bc3903eb7779ff01dac23d59076d98d11ec0edbf25465ec8a892774dc64ef16db315f791b8f16582142cf8ee" ++
  "e103a5e246be26943d5d2c8b64fa9f77134be063efc98f8234f4b39b800da7706c3f6d4958b777c1e6d6e69e88d0ca1ad0c1" ++
  "442f0713aa2379d2825834da609d4115a93f37ab1b122d388424994d93b2a4e0ed367c9674946c0b05b8c79b9c0d9d276873" ++
  "7a8bbb646b320898ffe8ed0e455177ee72d988e145f04b24295a5426ea0b5a8a44036734f580e01561c43d322818d581da5f" ++
  "eac97ec74e4d707fe58afd69e7de77abcdd12163d747f94d2e1fbb4e041542c842b152a5c31a9cee2d2c4e181a495dadd34e" ++
  "a2c725620ece1223a79277ad5f7769e4aa7a6537f0a8e0b99cddc0e30ee6546c15ca3981a152f5a34b2d7b4b7786605dac41" ++
  "def62a14386f642c7820aaec60473f36bf2e6cbc3243c587792eeff05a484fb1fd015343a3d04c6699e67537392f18b5e7f4" ++
  "ee966b302088230e6988aae8d4ab21cddbbbbb97a6d9265727f2541d60c9b8789af6a3e26d765a13c26ec2bff80a921679b5" ++
  "d3b973fdb5f546019ca68617c368d5f7841e2ae6e6676fc299e00b174531931b7e65007f33de54f91713e2d1d25b0b1a7325" ++
  "5ca1b9bca15c4290975bd8b0278a5997b8f5db02f0896c8b0d0b6c231886e9276c00b3e459fd269df05a563fd0e053642411" ++
  "0203010001028202006b5094f50c1b3b213815d002d926328a0f82ac6013aa3fefa5c8192df0cd41a2b30bed8a86d9488369" ++
  "b525243d2b795f5fef5624ae7d023d7eeada73d41e55716eb2663c31a257a8a71d65d62ffdc95a3e633c703598a7fe8c3866" ++
  "6a05fc88894f90e532da7a3cf9779cc8ffc2ddb53852ab1027e0c47921f0b7f15dd752011d338a204d537624360365993805" ++
  "5e179718716dc51b9813f3082d6c32be954d5afe3e32a891c7f3950613d1d92b95e84e7a77f04d1ccb95bab3ee611e35a998" ++
  "190ad336c43f2ec35e8057e64ceabb6a97b3701cdb4590da35fe6b2be5e01fd6e5edd81e14633a5980e5b0ec9f25e6502c7d" ++
  "2af808c69e049bb2b345e731a3a9d082a6f7c5cd44c89bfece1b49f244a0006f740d906a16b71b4a6fd6ad323eac806b2678" ++
  "f8d7b746969595bb10b351158fb19a2e7316c1a50dfbd8b797302dcd33798d2b795c88d58c6822fe7bafff840d60af1062d3" ++
  "ef3e277bc30a5b1f5744eabc60e9713be9d3cf2e9dae9b8311a7de1d9c468e2d1fbfe1c36dafa49b69e74c5ed4cd7c9841bd" ++
  "6e5fa2f126ab415e9d40d656132ca0b929d528a814443b1ec2005bc01dd34542549a870d19c69ad9cba44f540aaf42e4ff63" ++
  "c74158269b256df042446a481795baa40145bfd9836724ae626b1e43a01b9c3dc60c5eaac56ee3a7a6dcd956a4a0b90c1ca0" ++
  "c77390ea1f125f3565b1113cb7e6102b847229d2c10282010100fc141fc3e51cd5d6f7823e46deb0a9eeee808ccd4ae846dd" ++
  "feec7bb351f43bbd6d1e0764eaf61117d31cf37657a88f2b6cef75c25f76e0373f6735d9f8b7a527eebf57c2b4473471450a" ++
  "aaa0f2aa4ca1c524ece6d315244dad2b119f7990262391ceb668ae0a30ba3dfe4b95b6f752812447b993886cd944537844c9" ++
  "c5fdb4db10d9defc6c8946c802731087eed0d1e9f24b4386e3d66b90322d6ca2760b919f403dc75ee6fc093fa54bb99df0e3" ++
  "8e6fcebd69e025483101feeb510d6b714f537c1e9d46ea5dc93564a0e3f65b7c016688204ebd805baf66169798d4f3256cbe" ++
  "190d68bea6e1aa97710dcd065b369a0493a6a43468724637a50b270517fab4b90282010100fb38dde2ae808d883f9362b635" ++
  "09acb0a45626fc34fb6c841e854a49a87d03b4cf7f83eeb7a972aac7e3765422db6fcc4a4af86ab28c85a64a2c7ac2cf3c97" ++
  "6eb9df0d11a16432173f6220085f05c417c055befbe92a616b7ae1ae873cb26008796a1bdf9cc6214002eaeddf1375599868" ++
  "dea7b93dc4930506a6e36f04dbe521c8dee117c7eaa2a2e0a9b79e8b1294cc752631dea72f95f20c1cc2a7fa778443b06af1" ++
  "f994470570a45a2e52eec066de106cccc53e2f2a83fbddd109f5a3f0e9404becff0a1756af54b91e9f323d65ffe3131a33cc" ++
  "a3a5b668e7fa6b8978dd691f8485c3a9cfd209661ea46fbd8afc24962d205766f01f1293995ef1c5c96e190282010076e50b" ++
  "027b8af9355632612b4e17a75f21b11238360f8e7560aaabc1ad72f3c669b4132abf43e65605660f530f0f5acfd1a6b43544" ++
  "8fae3b80b52e8a2bac7ac275f25bf362d27ee2b9fcc8f3f6e0ea1a17014e97a491c138bde7a57d417a02f31def90cb98e307" ++
  "8ea074d3b3bec3b26f64ec4b9451717d9ca37e037be3ddc132de24d4eedc467753190caa8c62d0ad6199bd7411285f570681" ++
  "1439bbfacf8414c7d91bb3206159ff61f8708915384f535f00a9f265c342123de941a681b9c4ff8c7868182daca49d8163fd" ++
  "81922ecffe4b5069b329da94c522fcc7c21118e2cc5ac69f53e5246530decaf29bffe3a60b6894ddb8365747d5310c2c9053" ++
  "7a154902820100630f4f5efd142fbad3e6d7fba4fa459ff98d071e57fdf4123cbeae46512bca7457859e8e58d9761fa56629" ++
  "d88f4e1bcd605623925f094e01fe297fd6a544ed297a1d5bd7e1ddd26a9c51a2f3ea1429f87b9cd40c1d2adaf338a718dcb6" ++
  "b05771bffe7933396c5edc10ca76358a44b1a98960929e569ed6a21ab75fe2fcf5806a4bfca6a16bf13764265685d2fc5fbd" ++
  "50c9b8dfdd3deb63a2e7e7c751d94f9b55dd90ae0d8dcc5b76c937ce206188788783ce83081bb7197aa5ac17ab67b2d76202" ++
  "3a6e1f3ae96d0301d36521bcfbbce6a3b17a99864dd9200e49bad300882a3633795c0d853e2f42098477ae9ffcd7e3cd5bc9" ++
  "eeece62e3a72fcfd1534ba72b10282010100dc4c22a39b2b3f8ad0250e435964363e263ef890562c0d2a8db1b4d73b65d53e" ++
  "016ba23f497abe6010e238786e448cb0ea6f39c8218e83f3efe7d37403801b6a584ab8ec5310093eba696941c66d53b14a51" ++
  "567cea75cfaf8ba5af272767255505eb03092ab2c09ffa4e9882413596b33caf1e52011bf7c6cc337d94b3e66363c9cdb10e" ++
  "32c765011d7ef7ceae6abbfda77b82ad1c5b9c4aa15163622b7978fee28f412ab50f65933732dc3fe8159c7bbb883cf5a6ad" ++
  "8471b0c1868c72cdeafa5411a034ead402359a6d43204657e4bb3169fb1de89c748bdd7bcaed10af9925a0ea9409caace51e" ++
  "14a651cb441299eb9e31f52390533dec4416f2d3105758e5").

(** tests/rsa/rsa-4096.pkcs1.der *)
Definition rsa_4096_pkcs1 : bytes := of_hex (
  "3082020a0282020100f75fba089981ceb6fa3834973ef54a87d215bc3903eb7779ff01dac23d59076d98d11ec0edbf25465e" ++
  "c8a892774dc64ef16db315f791b8f16582142cf8eee103a5e246be26943d5d2c8b64fa9f77134be063efc98f8234f4b39b80" ++
  "0da7706c3f6d4958b777c1e6d6e69e88d0ca1ad0c1442f0713aa2379d2825834da609d4115a93f37ab1b122d388424994d93" ++
  "b2a4e0ed367c9674946c0b05b8c79b9c0d9d2768737a8bbb646b320898ffe8ed0e455177ee72d988e145f04b24295a5426ea" ++
  "0b5a8a44036734f580e01561c43d322818d581da5feac97ec74e4d707fe58afd69e7de77abcdd12163d747f94d2e1fbb4e04" ++
  "1542c842b152a5c31a9cee2d2c4e181a495dadd34ea2c725620ece1223a79277ad5f7769e4aa7a6537f0a8e0b99cddc0e30e" ++
  "e6546c15ca3981a152f5a34b2d7b4b7786605dac41def62a14386f642c7820aaec60473f36bf2e6cbc3243c587792eeff05a" ++
  "484fb1fd015343a3d04c6699e67537392f18b5e7f4ee966b302088230e6988aae8d4ab21cddbbbbb97a6d9265727f2541d60" ++
  "c9b8789af6a3e26d765a13c26ec2bff80a921679b5d3b973fdb5f546019ca68617c368d5f7841e2ae6e6676fc299e00b1745" ++
  "31931b7e65007f33de54f91713e2d1d25b0b1a73255ca1b9bca15c4290975bd8b0278a5997b8f5db02f0896c8b0d0b6c2318" ++
  "86e9276c00b3e459fd269df05a563fd0e0536424110203010001").

(** tests/rsa/rsa-4096.spki.der *)
Definition rsa_4096_spki : bytes := of_hex (
  "30820222300d06092a864886f70d01010105000382020f003082020a0282020100f75fba089981ceb6fa3834973ef54a87d2" ++
  "15bc3903eb7779ff01dac23d59076d98d11ec0edbf25465ec8a892774dc64ef16db315f791b8f16582142cf8eee103a5e246" ++
  "be26943d5d2c8b64fa9f77134be063efc98f8234f4b39b800da7706c3f6d4958b777c1e6d6e69e88d0ca1ad0c1442f0713aa" ++
  "2379d2825834da609d4115a93f37ab1b122d388424994d93b2a4e0ed367c9674946c0b05b8c79b9c0d9d2768737a8bbb646b" ++
  "320898ffe8ed0e455177ee72d988e145f04b24295a5426ea0b5a8a44036734f580e01561c43d322818d581da5feac97ec74e" ++
  "4d707fe58afd69e7de77abcdd12163d747f94d2e1fbb4e041542c842b152a5c31a9cee2d2c4e181a495dadd34ea2c725620e" ++
  "ce1223a79277ad5f7769e4aa7a6537f0a8e0b99cddc0e30ee6546c15ca3981a152f5a34b2d7b4b7786605dac41def62a1438" ++
  "6f642c7820aaec60473f36bf2e6cbc3243c587792eeff05a484fb1fd015343a3d04c6699e67537392f18b5e7f4ee966b3020" ++
  "88230e6988aae8d4ab21cddbbbbb97a6d9265727f2541d60c9b8789af6a3e26d765a13c26ec2bff80a921679b5d3b973fdb5" ++
  "f546019ca68617c368d5f7841e2ae6e6676fc299e00b174531931b7e65007f33de54f91713e2d1d25b0b1a73255ca1b9bca1" ++
  "5c4290975bd8b0278a5997b8f5db02f0896c8b0d0b6c231886e9276c00b3e459fd269df05a563fd0e0536424110203010001").
