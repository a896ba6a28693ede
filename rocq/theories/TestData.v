(* /repo/pkg/bencode/testdata/tears-of-steel.torrent: its bytes.               *)
From Verif Require Import Base.

(* hexadecimal text *)
Definition digit (c : Z) : Z := if c <? 58 then c - 48 else c - 87.
Fixpoint unhex (l : bytes) : bytes :=
  match l with
  | a :: b :: r => 16 * digit a + digit b :: unhex r
  | _ => []
  end.
Definition tears_head : bytes :=
  str "d8:announce40:udp://tracker.leechers-paradise.org:696913:announce-listll40:udp://tracker.leechers-paradise.org" ++
  str ":6969el34:udp://tracker.coppersurfer.tk:6969el33:udp://tracker.opentrackr.org:1337el23:udp://explodie.org:6969" ++
  str "el31:udp://tracker.empire-js.us:1337el26:wss://tracker.btorrent.xyzel32:wss://tracker.openwebtorrent.comel25:w" ++
  str "ss://tracker.fastcast.nzee7:comment34:WebTorrent <https://webtorrent.io>10:created by34:WebTorrent <https://we" ++
  str "btorrent.io>13:creation datei1490916654e8:encoding5:UTF-84:infod5:filesld6:lengthi4850e4:pathl21:Tears of Stee" ++
  str "l.de.srteed6:lengthi4755e4:pathl21:Tears of Steel.en.srteed6:lengthi4944e4:pathl21:Tears of Steel.es.srteed6:l" ++
  str "engthi4618e4:pathl21:Tears of Steel.fr.srteed6:lengthi4746e4:pathl21:Tears of Steel.it.srteed6:lengthi4531e4:p" ++
  str "athl21:Tears of Steel.nl.srteed6:lengthi9558e4:pathl21:Tears of Steel.no.srteed6:lengthi5933e4:pathl21:Tears o" ++
  str "f Steel.ru.srteed6:lengthi571346576e4:pathl19:Tears of Steel.webmeed6:lengthi35996e4:pathl10:poster.jpgeee4:na" ++
  str "me14:Tears of Steel12:piece lengthi524288e6:pieces21800:" ++ [].
Definition tears_pieces : bytes := flat_map (fun s => unhex (str s)) [
  "f1ac9a78e3915e195710609c4aa529a7603fa0e6f6f025a455023e22ed9dbfd4eb8d13f66ae17970d88b12c6095ddbf63b8e410c8e020cc88cefe50e6e82c78646493e88f456053a705e81ca4a522ac3"%string;
  "7b24c535905769ca10708532314713a85d0d2623a012c4d0dd602da90aaae9f4591af8d5f316f3f1ed807478c949ec83e7291d8571629f09d974f6c1b5f015a6649272bceadf12cb8e87b0945a7890b2"%string;
  "c841f71e67ff4443c9e557f780bf5b076884a785d068ac70a916907462d564afe628bb1e3de0d8805ebcc994427ec803401b27945af038554e1b39ee5f434c12e04eac540c05c1acc1cd7e4a49940c56"%string;
  "418cdc094add1ffa3fe83541348ff21e4feecf47879d38881f3da3882165a1c534f06a8861950672855cca87299c57e169a08b365a87252541b995bd9b663c88534cb26cf1f2d8371b4939502d94cab4"%string;
  "d5e14a4f00aff580bf1857fd4baa9961e61bf13abe2a4a83e602e07a6bc29873c65da2376d9d73bc42173a393d0b5d5878a8a1e934414c976c879eefa0c6cc1237c927d35b7be8b0f40e535152a19503"%string;
  "b2b513f8287bf66f0dcc439f0942380f93284a4c45f9f0c5b2078c7e0048b303fe04551ab202ed7df0835cd20d24a9f9f0f0900dcd3ebfec57a7cee328c82d96ca908ee5e06136fa0e5c0a13fdce1fcb"%string;
  "d0a9bb25d04f42548731d897108aeafd5406017bbfd3699603d6cf615aac5cbc8b4645577372f89b2e5cf52c13f18c6e1b521c06567858ee821a5fa20cdec8c15fdd0fb0bdbd898f50b8c0645fb8e404"%string;
  "7904377e6841b09706e1641c60a0b9e04a2a8742c7b7880dc82170250bb94741bd0e128f952d6866015c61e781373ecc499c16ab640ee6b12feeca537be2957cc8caef951423e6f3a5a24a2e58fab4d6"%string;
  "b5f587893c83ffa813b127c395b4efa177af5c182fc64f57738b483db306a4e476c8755a9542885fdf9363215d2e1ac67b23ade5d774bc6ac0a0dc0fd45498edc62b5730f237d9e4a509b4ca893ebb3a"%string;
  "2a29d5ae6e49419244222a0c036ceea365d6d816b511243b61a7218738cb605f4e74b1465713f3e627cd99aa91d8b6f625cfccbf170924bc938b793de8971c1107f297c28dcbb79de3fe2da628f4e6dd"%string;
  "bc10043cb77dd5ecfc68e04ff714ddbbecf77eb318ee54187519a1457757db4ff7e1d8b5892acab0da193cea7feae908d6a794d6a828166e49834dee19da0fb095562793b696e3fb6f83e4224fc8f0de"%string;
  "3b2367e6cc22a5a04cdb23d9fdcabb1922dfd2e8a5e0cb71a1f8318e81656c07a14c03d056016197b6adbf3dac80ae5031d433fa504f65a6bada4bae457128f40d319471c217d762b2475dbc53e9008c"%string;
  "f944b20ddfbdab7dc9819e942392d76a1e31ce55f41045fe0622af2176220637862eab2bd19d750bc6c1dc328e068fb908fe5197b317d9fcebdb9423e1efcebec5a927ec93f2e21e4b354d1ebfb663a3"%string;
  "e4e4ce93d5e2ad98924cc706a5ca00dedcd68b7e45ce1503e47137ce225f0804665f0896fb421a2091c4c54a81135d5448fbdcbbbe135d993da841e37c8d1a0a55166f8195612c86b2b3c85a41524c9a"%string;
  "aa83376ed8cfd8cb91244e1ae471694cfe871100b055e93a8cb76328e65dec0bf08b70ec7b4ded975e81c742e244df55881ce987686351f8270d7b072ccfe4e99b6fc9e3941f54f43b0f75b1f72dc1ab"%string;
  "18f1e67328ad5a821bc29e4893d6bfcab7b83f24939b6c09ecf8459e0d0653b6d7a92288f35e953b4637d0862db48262602e79633035f80298080e7570e96a10428ba353cb1ea7be7bf3eb88b7e2c36d"%string;
  "09eeb4ffaf51f83e375802b7eac31f173c50b40b21f44978dd33b752fb10b3d2bc27258fb1774f2989692bbc50554fad90b53bc719bd221f91291b0bc0053f6a86363f9f375279526f7888274d9bd515"%string;
  "270e9f94837d94b529395e1ebe19de06b3e229a8f25e2cb3b93ecba978bb9bd6dcf72817d3b6a6e9edd6042ea9f1010ac6ebe9ff0bc59d359c8500f6a777dd13c518437f1ff9258fb6dca96419d52ec9"%string;
  "1d103b65cd3b49372b63cc8f7bedc570f5b0feadccbc56fedab4ea7f50a6d745b7f00b06c74112918b84d093bb5cb662ca575b192e51a7db3f0534d673c512383c868651b7977ea3a2d83c53987f9936"%string;
  "c0cb39fac991e5e968eb6f8cd41f52dc64468512b0eecae014e45c7d0d1bb92d330551c2f375c8128e2069fde7266226a4f06fe55bf931f69f3278bbd6b220e80f957b2d88b87f676c2c6e147158ef6b"%string;
  "06e2edf1e44ac07287d4555950998e3dc8b9cf53904eba73ef02f46bc4c18483c62526baf1f280a894e2bab66a174fdd45602778afcfdf265aee2133b4057aaa1317c5d9bacb8187a235f05fce237fa6"%string;
  "0ae495c277753578ec3e9613744a50384855a932f79def22a173a2328c1388dd6418197ef35d34b58b2e13e478091788fd1770de7c0835a59faa5fc690a2382ff3469c0ed95006929ca461bee062e9f7"%string;
  "0773333bd6b7dce5183d043d593eb814568646900e482e5a8f1323483144f349dc78a76749c3ff1c26c88e5220c789f567d4520475be9021bed2525deabd5ed78218cb19f2036d556560df595575aa3b"%string;
  "52ea2bffc666695727425fbbe090b1391e69ef0bf316c27f1c6ba05134d59bdaa83c65ac9b11bf688e247c7fadec89b74508ecf3638f8f4b302a251c863390c4ba197c4e8f4329d0c2fb7464928cfcb7"%string;
  "962bc22d8cfc2950c3428afb9e72943276cd7c073511ea63a58f902a030960949e312a26d182d9a93bc26d0706162e7730a80bae4ac9f1a78f36d2704417c1b6a755cde434e0e9fb91138b8162a11197"%string;
  "bc81560d74dfa9c2b2c95f3d54e0ff82e7f50bd472ced03f543d37ab82f56175031f5c2b45796f019681988fb4c9a5ee4d91a928b7c60ba3bc09b1ab8a6ee6c0683772ff5a679414bd4fd09166143b3a"%string;
  "12036db234640e25daeff85ecc9784b8dd3b33b1b36c313fa9a18bc2d9fece32afc30e1d549c6c5cc3ea33d88c1c4061924c2ce66f65a474180ad1bdf083faed8964c29d7c5a833834a5d180e7329d5b"%string;
  "c31666d87b92eb923d5c0ce70f5d6bebb94823a0bf6e8798d954015c4ef406e7ce6d7084f49dc43d9bea2e4dc7776a34fcad2d29979b5506d912247bff782aff0d0cd77808d4b9ccb3ffaca30749f664"%string;
  "e9363a57a861fba4d6857e048fc634c0870d0fe38a31e406471a0b5dcc50a383b6380afcde704e4fe226c3e71b82891e857a7c0b88f0a8375985d0a8928aad97e5471def6e8cda35ee862429ae367605"%string;
  "e51a7bf5a825df9c7c63d4667c26be201eea11e540fb2e4913d2e315ac7109ef11e406eb44aca7058607e39daa592ca6588a245d1a804ccf6413e38a052353d82eb6eb7e6732e777ebfb116c2582b225"%string;
  "3c66e4f5a39df7782b1d7aa715f45d058d8323bc16c2ca7514a6b1f6bb9ca8674d6d8939d5248b78585b89d8a22e86641d06ebf51d9b36fe8539afcb6cc821c0739d3f139ea4335780b2958b6341477c"%string;
  "84cfac5842310fdce03e6e256c918d331d4a0617a90b2410a16899d42bbabef4a98429824eafaed868aabf639cf1160f421a70f9d8b5f9f77c8a519011f092ace3e96913dfae64147a94cbaf016ce10b"%string;
  "cbb99c588bd8f641a480bca71035824ecfe34b891d19d642d9b9f83d96e1f0ee74ced095797e912e84bfa773aa6e2966a0f55e05d713b843c26d1fb8b25072ba7a1d1eaac0a7ab78a72e43f3601d3ab1"%string;
  "3809a49975cc8e508aa9526b8a3b96ff81aea512ae1f5f36a9b9545cf7712efbfe492609ae021572ee671fa34ca03b3c3c0ff2a2bc803bdd117a777a5e87eebab55def92d5f92a84a0c4756326f1ba58"%string;
  "e7f521017b5cd23e608fcd8e2d80965b4180fb7486ce541b073bf92fb94bd78d35d28cda10941e3b21cf95071b44404465c34203b2093f2252f205f5e8838190f3d4527f93560cbf5b09fc507ab0fc23"%string;
  "64f880d464460aa697062c0c5972996a7adb3eea5be3aed2f216366fe2519080a8894abf0671dccfb75bfa1c6edf7f79e866664f1cab6c6dc657d7fc1678d5abc623b96220e68cfeca119984b6cd86be"%string;
  "ed5168ebdb856a836d0e0797042aab737336f057426f0cb5928e54d326e114d67843cbc0adaf78fb525e1a161be229d7c369f3a0fd65ea2db4f5c2b59d214ea69affed1c6dc27a5606fa15d34b7f3450"%string;
  "cf90be99e13793cb7537650e0c15db866627961b2d3e036fa6911bdb6cfc8db9ee0a99241ea35cdc021babb141fd6641f68925695667379bcbe53120492d38d7f620d43725bbf1fe32c61a8e741ba937"%string;
  "1c77982b318a12c3ad762943215a6e151fb2f01eb3377a1ca36d86e05c7beb81454805759bf9a0b7d5280387c51a942dbe31d8622772dd02538d5dd9655d98775b747e7dc604c185c760e06b73bf5023"%string;
  "e386cc7c5fa1839adba5feb59edf21c1a7b9eb7cc029f84dd3da780513a0364c0f4227febd508f3d189cf5f5ca1e68c88fcc3700fe4cd88bef8ab13ecd09ece11994ec3a465989c5e18f6338b3b98503"%string;
  "2cdb6aeeda7b55d31190e6abec6a5b38f19b97c5f62580eca24a3cc9193743ad83a53d8ad27237f253ba41819f17e91a7d410e1d38a32502c57090589b253e56b1489fc79ab4777c747c8c095ae2b6a8"%string;
  "43d507506530cb33dc7cd4f3b9ef69d59111f1743ba5d385beea201ef43965ef5d15e872064fb400f3dc736913a04ecf59911982fda0e85ddf23b3b280c0b4f2f15b2acb389578e447ef0e48daa7c93c"%string;
  "d5c3fa9a145de6d7133c98a3af0f2e7b57d2d6e4fc400097b543e86c2786fd1241509ca3f3b1906b294f4c8c2d1fc53ad3d1dca68fb3cef2b80ec6414ca9762db94b17bc8d45f52b704fb42871c37eba"%string;
  "7ed4eb6f9f7b4747162c7c5ca0da7058dc19deb2de02ffc5b4ed56cdc6eab5646f8a95fd7fff391214539d76762842ebefe77cb1427c76c62350f58a1f418e767053b0e5540f1e1afb99943cc21c507e"%string;
  "a60c05a3914d35127ec0fec5cdfafe9f8aae8fa627e5eeb1f2af27ee838dfdd9bf9e224dbfa870cccfb7a50385b02763fb7314d211bdd602b67dcabd94e1d61a91b07ca36b540e44e7606f7293445004"%string;
  "f2e84dcc3c4f35671d729238e27d037a86c9e94b6f13ae41d8fc6b9907407fd6c1c7a9d0495393fd49690873388dfdeb7815614979e30fc4a1cd290fca6d2ec030ba39bd4edb624dae7f9659214fd0a8"%string;
  "270e4f040b7a715cc9f28b555d54a0817fec3172d110e2d5cb619920efb86e06503e2ef9664274178af65f452998cb7023ee944ef31d5419e0e6d11750be5620ba67dd1f6a517d87bc92c8b5a70b1f48"%string;
  "b4597d133e01ff7f9a22d68231e5fe519dc9b26ea52051b45d55a99e2189c7e740815f42c1f3febfaabe1e7996adb0c5e4f3ec00be88bf65d1ab5587c589a59908d01b3c4eeb851c7cca126a9296ede6"%string;
  "3c2c233d2285f1250f685931ce45a20a7e5ba34ee5a1649b4a19b0b3742f31e44ed5b25e1c908fb4c04777250144e6e78446781be9fd9771ceeb295b50098d838e19ef43aed097359ace05541ab737e0"%string;
  "dc1bbb6635bf75d4c8c5e77693064bd81bb07277519f16d7b7aaa051352d03a4e014dd5662b2fa309a7ef91028b5f37135e56d5bddf1267777645c4d9fa7f236f8cbdae76419ab1741afcfc0932fffdf"%string;
  "98b57772a03fd973729c93d694ebc3a38568c72c4d70c4226e50f89e4178cf51e75ae2c0a6e87d6222b9587a0ed902e75ec7f40685e2a3700b6bea50c5a9b1dce0c59c6658ea69c253f4efdb52a29bca"%string;
  "f0ef03672205608a971abe97dc35195968a42df30b5f2a9992d320eb18db4c58e4e9d397c270908ae6c1ac6503387cf85b8f060ca5967e4aa352e8314f63699b401952aa21be9c9031e290e91101e25b"%string;
  "8d3b5f433595eeb22ccbfe6af99ae3d8aa5ef626e0486bb2912c835925f6456af0ff1566a1918fcb654180fe51dcfcfc10b9251959ccb2274d84ad75f83630c1341aa704efd71558745983dc07d1c828"%string;
  "3d5296ab620a31742b1b203459b528287cacca8361151d358390f122d0381338b7424065c0c9ecf54de92187a7c2df2d0c782453d8a658726a79573611cb0fad4ddd9724fa4438707403f0328495db23"%string;
  "9758af7f5973c08bcb668af8b21b42b62b5b7af79e0bcff4824a26a8a7b6227511f1a13c34cbeabf25de1a53bf772fe20d6886996ea82eeb447b551acc20f6c23829112f872ee92fc5cdc1ec6597dd23"%string;
  "c0abe3b59c88e1d4641486334e1b679038383dae4526315d7d269ddef360a732adf3868740fc00ad4220fc850743ac333760e40349d59801004ff99847b8c927ab2a559b11267c402ed6a3092496cfbc"%string;
  "38b30683add4653479cd98ec9dea2d51af7f12beb71558271b2cdab2ce3a6dc0854d4b453cd7d332541c682306ccc164c7b50c49aa05c1a0a784d61969b47ebdf1348eb139f95a8a7725e3ba683bb74e"%string;
  "7d5775c7dc022380f23718b6db5f6366e16d50c56c5ec7af44c421aafee058d4cdb65ebe51487b6f6be4d1f3d818a55ac5f6047cf2bb7c9027822cd5bb8fd086a9b4262f5c4651dcfee00a417bf53828"%string;
  "ac51ef2ec061d71699624e2bded3d2051fe274d6698b5ff88d0c1277a015f637d17a0cc735a40c7c1f5ebfeda4c65cc9cdb75c9a47f0f59a3dc73d691080775741dcd9453fc00ff94d462764a204203b"%string;
  "4cd04c16662e62f7f56b3d1868dbba55ba0480994be0fb11b83271349dc495e6ca432dcd0b5305d8b86ed29c68bca60cf026bd99efe90eeeb3aafd69225575d7ba5364069a06302f628ad59285b63918"%string;
  "b0e603068ccd76932184d76d168668bd7230c11e7fcd452be51fa40e151b3ee3e6d95107db6ed2ac5426590306d24995316038e7fa46e14037ec179919bd90571843da656f8a70b70c4bb49d32a3d6be"%string;
  "9b7ebeb22e40f01bf0aff5f579a372d32dfd42ecf2e41e369ddeb4408a90ce19f842ab613380c3a778c72a8e6d01b8e1400a1be258280c30cad73d53a1bef28c124a75af62936e7ed57abcf52032c560"%string;
  "6c8c3b3949d350bb35d86097c208d8d92d0159f0bd7a9547cb8474e9ae9c689124612496ac328c75049f16adc7d2b74dbfdb8d821599ae7b0ca9bd7a036c966324f5b70f326292242c51a70c2a272a0c"%string;
  "b459d53387154af54f24a48fcaf05f1b6d64e9ad008bde6ec1e34b30819246dc7acfdc3d4e336e097e0ced441ffa34c005f7417a3aaaa948bf53ec0965f21f94fde395d9e0be9ed8a57776d6bf78f4b2"%string;
  "6b4b0d86d137b0c8c7ba923a106be5331a38f01ca4f13862a03a2067446509fedea8fa54ed17dc7b35bcf6023aeeefed01ff4d8d07cf094e6fcb983f7a80e0a61bf9c5cb8a9989225638a9c2d2c8ae8f"%string;
  "350746bb23f94260f721f3685971ea99551ab7570f356179e5bcd6d896fd5a261152f578039849c10945be858d1ea794791d994536523ff85e51f09467df7487b9bba39feb3cf56fa0d01c85cc69d7dc"%string;
  "bddc65de2233c9af54a8902b54c6cc2fa2fc9b8aefef7c6def573783c05d35e537b0a45befa7a40b77c9a96657a2ce73dcf14f643667dd68528aec8a6588b8b23ccc25800b07f0668f6602a0aa6f4c23"%string;
  "abc97fd05a14942b1b0c1b8d96448e7ef09388a4c4f782e0f4a24d54e717eb76d9c40f7bccfb31d738d0efed15b01bcffe33c765f27700ee7b7eb4c5e9d9ae88931c290b1bfd18fa02cc5478d7cd5dfe"%string;
  "022294203008529cc773415ea014f94b7ea82a452f1c6052942512b1c495fbe5b272916b4b9ca2b89863333c5b0916bbc561180935c62385b41dcd62f02633df2cc89f17cc72614ed811e2a69667e5d5"%string;
  "0e09bd5e587f3d8285974af1dc907be72fb1219df83e69a3e83ab8eaa8297a854f59505ce83c7e39ff9f7003665eab559530dfe1ee93107f8361e1cdb2563ca0be6da9459928419fee54eecabe315666"%string;
  "41dbe785669e3bc2ccac9a2b427152b6ad3f9fa48096d512525d13ac2ebfd35c2cbe9952b7cc8ce168e6f30ad530e4c41ee5f52c91260da5371f9586a36c8f95336a9853685f5cfbd47c0a69fee0561d"%string;
  "4d145a65fab88daed10e41641d5a72f74f2a69004a727e9d571416bfd8d7249ef9858ed708616c7d6431aaa9659eada9a2d733d7da97e028277c2bb0e4737cbcdee485308637ead4ee1e98d6c20ee3e0"%string;
  "ac54edfd0870e9e7dade984c0996fdb090b3ff47fb4e26ead8d051980bd0fa82daad5fc5c0da4a7be46c5332d7fcd4e32d7f5e96b43464e7130c3639e07dd6b0502e706ce53db5b3767a7f49ff01343c"%string;
  "44364ff6d477cbfb08779221185ed7022ed217a6b1f1d81c0677a9833f559f8f2973bb53bc1bcc1696fd5bf6abb51fc30fc595e43f750aa4dd8d23284a65d29d89e1c0e21a9bfa76ad0ce6a5eb7f2adf"%string;
  "628b7a2c64811a3bc7d88e72e789fae192228e72b2b6d6d18089d509deda59888db76965b955e4b4e45ba44f0c2c9b03d02615ab3e4a3d9e4cac81130545bd310a83e1ef808617ebd9013bddcc693469"%string;
  "f6297fc66944d55cee5ff880a41021cf28c440d71fb04ac9676b515f94292f9e820aafbb14307ad0a493b2d6c76e381de532eb1479069418d38e436b7493378a14e7ebe03c2d10e8ca4f6f2019e9f83e"%string;
  "c11fdfa0f71f41058b0afb5e6277825fa2a028d6eda2db980d8da8dab37f0b97b7a9f7a4eafdb0d354dad8f9ed29fbe884a784676d37b102ba60bada63751974308e83f3a2ededf225910bcb60bb8215"%string;
  "92dd924979745832684afe46962ec2943409c5ad8ac3ce72ac9c44b6c73cd7bc3d4ea8712535a79d5625ef4ec07df3b78666cce2c50884241ea55617221950610198a455247889a23d4730dd32100eca"%string;
  "1deadab506ac85f15108c68107467f4d059d2ccfc78a153bc9f43724abe5b479ec374e953b9a660bcd4634e59327c359a1813426b766977b6aba26bb975aed4eb074979f934fb7df4bf7573ad8f2102e"%string;
  "06530a729df718bbc0de2aa6e846be9df2338e04aca2dd300e70a7ccc99e4366b02762557deb38fe73119f525a34616c76db8467110385f44da1feafad8127cd4d3f5b794e7e610ae790d3ea5696c9c7"%string;
  "dc8cc95a766d399f9cfee63e22f426ffdf7ef21590eca6b9094c3971e78f3016a0a1dc9d05553d8ee206538e2ded964f3242037722ee0b7ba1ef359e11e409465714392b05f1f01b6533be9d70c0e71a"%string;
  "ea92e1f290d54adc308e4f4c6f308d4987f8fe4d550502470f5ecbbc72426513c7aa81ce30afa0fdf2de757e8cb0ba667b10c4a2317aca5af6ae03d9e6754587a9d700122158f12e9f328e266f3ace57"%string;
  "8bc6ba5c7b7f94562c73dca2f2d24afdf457d35c43fa4564ac02830f0935dfccfab17daa7f0e4a48f87b19defdf403e85353ed2d3fcd2e2fd0e6830f64909bd68021df241d67f7b05f069326bbee29b2"%string;
  "620a6e4ddbcfdcbc0d71bfa7ce5dca8052b9dc37b13a7aab91003061c1d8992b5e61b8cb875833208199be580ee99719cd890f5be419ca5e37862a3209438f92668c3920bcc50e046d3fdd83998c6709"%string;
  "be89840750e9602c66cfa279ef426f18d76f4f2ec55ae713d15e8ab7bb470ac956acec43d1d7d604c3a1581743a4de0eefb98d0153ca3757a46c89f752a1d1a49cbfcb30e972f203f1bd5e86cf0d6b3b"%string;
  "0f6d6df9c7f000ecd6663dccb7b45081e21b53957dc3916495c299bcb8a158325c0bbc551e4cc97f66e81d698998bb92c01f76b039e6ac8a9f54e2d2db7e549b9da7ad68d06c9aa550c622a02df61362"%string;
  "7ec68c1b49cbb3e8789b35f5408ea13898cbc5926f80f833d65344e8f76f2aebada2d35dca89813a5367e7501bbd9a8f70ad55deb57631f22faab2359e51df6969469afdacde9d49b09352252c09b1a2"%string;
  "e2a116d483f6d4e2bb1d6e9b76d467686615ffa7493122567d2f774b767312c2fb166d02ac5fe9f687c402ae266ad3e9304b1fc790f9242dc9303349c45aaf028f4937af8102649be6e44a5164ad379a"%string;
  "c5a5027dc99ac2c2aa2f64e28cfd7043dd23310b8f8dd03db0d0f26dd6bf2a62af25be224d66c09ad99deca82ef2408c5d56f1e21c5a76f331fadf5a6d157e08bba91271b056db787d81cec4b80f1948"%string;
  "2c3a4e5249239294a368edb1a09e0e3af22f511b013edaa1be6210c476919579efc6e7f0e03007f6656f531951e387845ac26a4c5ce291fd8f5679465e2fe01b060a6afedae774f96b9eeb8fd01f6c57"%string;
  "e2d6228f06f5365b995777d994f47886c6a56db2c14e0a374a0d292f16feca55baa90cab08f7b8f1fb297d2ff5111451eb74e293bdb43b490598a4cb8964fa1debe226e04049c42e6e4fc8b3b83b6f02"%string;
  "249343404d61f2e772fc2845f9c14c7b4bb6a942c48b55df46cb99058c264aedeb235b9e5b13aa2d4723121838b39cf417874ed8e05190469bbce8abcdba71b08bd029c377d4fa63c0a35a13918ff49d"%string;
  "4112739f6ba733abfd577d1df8a40f08263f79af6f69c6b67a6a68bf08060fa39659a93af14bffc67d6b6885bc4108078169b102d0ae1275079719fcd5ceb7e1ebed95e4a26350d3f0bac265e9878316"%string;
  "c80f169378e3de4790ce30d05281b7d14105cc8e5152a584651e9ae1d1f83f9dee1f0a5639fcc60082bb9fa3e69b28f7017da4b3898f8dc15958cd25c44452e873bcead5dec51d3d18d123da83ac9475"%string;
  "639a5900554c62369a6ce7028a51556e136bff01d9c7900617dcc98d5156850c64c8428bf9a12875f143434a36f6f1b3e1eb03d508b3fecee59e0631a9fe609618cc760fb23c7f72685d14f3f2334598"%string;
  "432a092c5fdd2ebf9d864baf0afe5044a33c5e1877d804f8b47984cd7602e1b1c4c4b71a98019ddc02e63b502b09ebabd8ae139958f37b426a51869104fd87e8a50822e7895129f29240f95081d73d0b"%string;
  "9a326d5c92da7f49698cd86ff5476763ea5a7351d74e7fd35055d51b5484ff11b26c0c57fcf94e720ea51735737bc79391e931e4e257141295266d5a6c4f085929d0259a867e743b9a7ec8baa823ded9"%string;
  "3c7104bc01e81cd63699c9820c5af8b5f4051ebe377234a590e08aa13f7c9d9081cb1f30d82fd0e3623f1412b02d4d68358e422433803ceb4a7e0628cc9c474e97912c61a97cda35961db70adcd6c8ac"%string;
  "786f573e8baac1bb35a241831f6fcbb189a2b8025cad4eb429622f48346c5d391638e8938b6b60c4d0a19887b4b43e9131d0af30949e98b3a0d1e9d7b3410cda4d111175eb2361b8aed8c46a587e3718"%string;
  "a18dd14b648b01dc3a3e224ed93886af501ce92fc2faede33244a08e6f323adbd7a3738667631aced8be102997f779c9daa7dcb2e46b36054142eb79bc3d4f4f05a409b9c8b9514bcfb46b064031a22b"%string;
  "8e9dea2b861051513ba76602f63b1d950ac2d18eee49f0aa70255c455febda44f42cbcad0fd9775d849f8755d08c6148764444caee002b17d0a4e39b46281b86945f0d6471f3d74bb4f402192740b08f"%string;
  "c66e418e1c6178a16f0f4fb8f25cd8ce484c4d62d3073df4e0b2029ad05c683704198ff44df6cf7a2e0c6f4328847440244929c93fab79f065255aab154bfa6ad19d378615d48499d6b9d72a295a1cf0"%string;
  "390bd036a6ca945a2f86ef7f25b7eb9b1b686a247cd22c8a69653444b8e01363f5c67b8c71f9508d64402a49520e7e1cc9b888c5fb5cc3b76904e5d8cd35acc7dffe4bb8975cc4c87682cbcd4dcf9dfd"%string;
  "940db268759760022d5b857ffc03a1445e7fcddc3ab9699bffe560eef6fb8e09377c90cf3e6d60ee882951b67638301af84c8d3e89abc327b487b02f33760949cc9d33e3923ffe536994622f319d771c"%string;
  "40c87d8c5097521d38bcc509d69324248a573ea3630f48d96226a8feb72e70d33d0392dca21475f1801976b6680fac263498e99f4c4a77df894c78ca437cce58dd1687b716b1d9a277d6ee5c9da11330"%string;
  "2af9ddee71fb7768ab784a6e899235ebb10afe2f57e8ebd6bdc4d0c1478f13ff0fa6fbfdc44348534726cdd8c840b636160760b28e44d039df236bcf6338e9ee5e50d3cf8ecc545c2bd3db007d24babd"%string;
  "b0937af3d3277b9fb4183560bce1dce537358f5c38f7715f6c5ff46f372332e1f165ab8492abb727855188e54859aabdfeeb887bf220086e8703d9646b9ff2192f7aa5681c97fa3955d2bb10072542f7"%string;
  "54e0fdaa8fb0cec9a7e51ac8483022a0c55bfc1ebbc137499bcf6951a30f39a5a305dbaeaa8e8ee9675a2e3c399731ce98acd0ebbc5d71b75180e29f06cee488ef27149704668159cf85d4ca80451e85"%string;
  "e251c4e568d6d945024976d071ef4059d09116cf89affc3e876a7de123c7142f65531f9c709a7f3ac24c0b1c00fdc4973c8967f7cf6cc5cd179604661740953c36f2db28644f975c6ce040084b0cedb7"%string;
  "bd135b2192696163810aaa826b872906e35921dd5130ed15e4fc48b3f6f6237f0215fb6e7f385d3c1d6220b044055c4b9f911cbc2471c8e01e3ffc62297b517c85f3a221fa265da1771da6fb0c072c0c"%string;
  "e7023c9c8e36aff653cf58f8cdac1b2473960e2d4a0377720cfc1c1b4dc01b4cda9652ce6423f1dc48902f8eee16be1f9cf8835b6eca3646f97e251c94362318b3eb18f9c53a66a4b4bd2f0906fad268"%string;
  "9e05187a14d08a939e3761ca766090ff2a0cacb4cef97137c5cc907736d92d5164f293548222e0e635e68e7a4ce42d51e364d45fad4be18aa1a9b34516d596a00808d01c27fc5f22009d601522ac8da9"%string;
  "a25070ccb1fd0a3f7b66a4166ba944dfb4137c151e22bde322fdbb67f4acf48b342e87b0548da38f2d642b46bfbdaa678674b66b36ea94990e75595e88714e1d26ea775c0a1f6d61acf06fb31bbfb88c"%string;
  "17260c9cf355f79543754c8ecd00810fb4e338570cd4fdc32c5938e2f1218c4a149f77b2e01278db39878e19ada40aee54372eb6b2b7968bb4865a2460e87ecf142625671e3fdbeee51f9b9059b681fe"%string;
  "c78cf74c5bc577e7f04fd46b2f2fcb211f0fb53dcff492a7291019c5bfc5a6f378afebc4554933f4b4b4fa088fd0126b01e931eea55d405dcfbc5a90e5b924c9d2494421c1cf6fcded14a646834b5e61"%string;
  "b25de0c18b7342fc0ebad53ed31f4795c0dadb5bee96d2e9d7b03a34c9801125fba2bc53f7a78b0b5db660e8ec753035bdcf56b8efba955b2c39d9d16e7b7f258f22aeaecffbfd7c83f45894be5f3554"%string;
  "3346cdbe99390caa842f45c9f3c8f9491628b7c3abcfc0dce46652159b77ef686e35365e4d616c9e1d2cc6e1a679cfc820287c60948733e306ca902044250b875f4f23572dc522945c9aba5ecc8d4468"%string;
  "b0d11cb255c3f8dcd8a35c4d6301e28479c9d2f16e81a15526153c41a67f4fd3719bdc58d61748cac278b6b96153bd3e46c38f7d817ee46ace9f2089525ddf1d626b67144cc3fcbd3b6aa4c06a0e6d9c"%string;
  "18aafa638e5b3cff620c38f96d3788bfa7d051bb87137228b81290eeae8cc265775284260bbdb010a63282a96076971c14651c6a974efed4ba2fcf57f5603a0486b18853cbf07cfd626c396a925c7a95"%string;
  "63c876e9a5eb7954fe30b70aad390a749f0c4ef3629c4c5763c2807537891f9debcc05f7fde1e95eca4136f77b9ad0a8f64a674a76676133cdcc65e748a4e610f8b86ec8360ece645e3585c817d054f5"%string;
  "c7a7ddc86f0781c73119bab11110f007f52aeab051f606aee85ac6977282d657873a56af1a0ec5064813059110c82986ddfee1f34d736a409cf7f4521bf3a369d13649102723fd03aa28c026352f521a"%string;
  "2abeb882c45a4902b0360bdc852c1e071902164c17363e948eb66ec8e5aca621a6a043eec79e8960ffe3d4dd32177de2af85cf6f893dc58cd8ded0929a6e675f6932b05dfcb060949b40dbf45cc38a59"%string;
  "4d9e7379fabacc8fe340c8f1b3e107817870c7321b8e1bdfa2f61f8b78ff21e827dc9741c1c3cb95343dc9c1e2e41cad0c4cf6ba20110ec9457aab27b5474bc7a315c7ae752e8dbe9936d9984cb3b76b"%string;
  "5f27657a2bb42a343fd9326f5e2fee87d54e5a1ebeaa4bff76d6fdda89f09fc940d9a1750a807afed4672be0f3c11a365e32638a6b7570e3f2860cf50be90758b64feca0693ea9bd6d7f1f972b180e21"%string;
  "e767f933c5f6bc570d4c6dd12e25357794490a9ebdb97fb2e36338895381c5126484442574a06725082965c07d58a61199f43c0470a74ceef050409d4b5a595a583bb1d4ebb484d014a7fce93797b854"%string;
  "0e8c115c0afe6e94c01f7648627042bff854f47f94d4f1a88f1950a8861258a1289903ff3bfeb9ac78c3591ca6e89b3fcd57bbd2c620bbdc78216616201db239e3a3b4125a6eebd08f8bfa6e5d0b2ed9"%string;
  "77aab64f1c4f7440d985bbfe75f4ae4a4c0b9f790e28593160b68fc09daff50d005629ae641044542b42c71943357994f97ed450d65ec06351e179b03f4633e37b381259769220807ed13fba4e178b95"%string;
  "4ac6418e29acc4c4b9b177f90e1d6229320d0ad55e329f05bfcee763f7d882a84c300ab647415658edadaaff80f90c15ea749d037d1cd37f545f61172a130719bd5e3731cb655f1ba2f61f6664be69bf"%string;
  "337826c1181946d83aa40c7235865eb501416d9dee8e7fda9839b7ef90e272f96c071a81c8d68af9bca9d20968c83c6cf7974ec3b256c741128baa19b99465f719e37eeeecd575678773300e013f553f"%string;
  "6d644046ead3e038762f497542ba3e467706df67d92451f5fe3be46b318c4e6d577f4aa13e90f9a99f88a742287be82e3701c0bd6ad69096e2089fb38a1fd36d3c868fe1ece23cb8f1800af7d0a61672"%string;
  "a9355cbe82a23e24510f5caa55626d89887fa432240be073850c487426d0b849c299964804e1b56a50a9340088361613ac00b63215b02e5ba245086a0d8c9410c183b32d416efaecf7f499ac4282f52a"%string;
  "ebe83d3e4a5bf1a6fc16f23b74978d3e324b6795cbc96ba14aad6faeb0fc2d632151b0b56bf2d304afa6acd07aa4fa6bde1018caf71b5caf737bc9932d19b3feff0696d33ce21ceba387cec2994118c2"%string;
  "19884812e62831536fd1c5c74ea5bc804c5376cd07d5ebac4a7ebefe776dfcc95eb6cc3fcf11583a32c5521b022d06aec9579b679c14fe4b910b517b9ba750fb8b3b002823480fe3ce4fc9545312df8b"%string;
  "f38ba6574293795c6bbcca493fd2a692eb07812a0fee5c8789aa7c45cf00a0c86161cff94e54318f74e06f8ff0b92c118846d430adf8780a0c5e83e6133a82000e6073f414cde7dd689dd34ae81c5002"%string;
  "296aff93db788e740e701331bfb9f0e26837be9a04803ebddf7c980d500c42f233e24c59db1f78729d8b8e18ef62920b21d21c9d479ae9f6b98273249e955f39f5fa1c3627e51f78d93a594a982a30bc"%string;
  "4d291e89fdbf94094bcb1cc0540a9b0945a4b972290295b5368a18feb65b269c2833bdd1d08f109adfcde818979bddc88fdacc22abd3215b6420a66c25fdeef98dd74f71cfbd913c32726b016a1e8a40"%string;
  "143b894c8135191088182f9d7c475f44d40ab9257ab389c143ed183cdde822a6a693fa88363aca04f66bc5852c2b074d64adc63e8a5669414a049254e3ada95e6faa16c59cbb8933b07249d08bc5251b"%string;
  "e4285a77508bc001991e68ef17b92cfe2c0b466a3baac671f38b0a5c9c8be5483ba8dcf4c989ab4f2ea6d83973db2bee2e709cd0edc870a135a6b646dc130bf95356068c28521fe8af80504c23e675f3"%string;
  "11079ac713c89f81a4340ea85dbe0ef7db5c735865697d48dbd176406ec0139ea6e7fdf14ac428a6dbce36e27b833751566b0bde0c4717aeca045398b3635d6b89544f23f2dbcafe84d954a8ca3b9c21"%string;
  "9f80dd8cf22176bdfc6aed1b7ee8b6d8f7d155760457f4f5453cdc840ae889b7717443dfe8867840dfed164c567295ac38e023e553e484d3e805dde66acf54a0056c2fd8d82d5bcfaa6d430af2a4ed14"%string;
  "198360b3c36f29ba8fb4cf161de54ce12cadf6be1a238b1874a65d7586e8aa68ee87a273a27aa5d862ddef0455e723b9ab6feb2f6e1a63345d7c7bd76510526c709e8324fea1d562b4f8a0f06cc25b5f"%string;
  "ec6e51f2fc85213ddeaaf1ec59073553f7ea46e77c50557bca38e40dc7594d91569a8b7e82e1ec4aff2998f9f56c2a83b53a4785017b57ff7ff2123ec7cf72fe21be0975a3d5d0f5ca0418dc34170b04"%string;
  "d216abd13f45dbe5be97f12bb812b96e2a727021bc9fbf6a37ecc2e85760fe1025bdb7384125ba2f18c776e873a9a8ca095215beb11f92551f2fa2445cc8064f91aabbc69be4380a0053ff9c5f159f74"%string;
  "15ef580f55d9e91c573d7eff6f54488d9216cda4546f1dd631c31d842c9538fb5c3c79fbf8561ac04d8eb0864a3aa6393a0a9fdb2787a0e329a801500dfd74ebdc8a4790a6f1ad976da578822cb007ec"%string;
  "c77984643f49ad82f52938caceda96356da6cefdf3ae7748bc0c775e35512437c2bdba5495e6f12f4a3d88192ea5db902368665a30c4889719cd004190a8184b87895f2c32f39b27de30603ef2b7264f"%string;
  "515cc12b7349f9a2f677db3c9fed8e8f5affe790bf66adc0b6bb268ebb952d69d38b52e878080488a51816af4dee6d72d2e9d62aa9c394a583066185981349883e851f81bd358d6c0212f4ef84d9741a"%string;
  "92792b1f8b3b7dc3a72d108999e479042018cb650b3b1aab2031ab0d472f5f74f93cfdb843bfe7d56daf36093d05850e259b63224bc99fbe99482df51d0811e2966b7bf45dfe5f90c4a4822865eb45b0"%string;
  "364cd9bdfc50f97d7bb7ca257449546e4dbb5204e6fbbf7cfdf98fac08642c85a990c27264797d4b7bebfa133f3b78fce96fbe17f34bf9f7299828138f34d5f0ab97a6bd6d81e77aa3ab71b51c1e080e"%string;
  "da44b24d61b47b17d478fdc66350d02015bf9201fb8dc7617c93f409462adb817f2ceb20c99c335d9bffef6facb93a02ac6732fb7d162962a47c5c45972ba46f7e9f191c72691d48a1de35d96d3d505c"%string;
  "9163a57ee6f8d471270b4b2e30806111a7a0f201834b00abd7bc2e1650c7711a08d9c06314c2f9ed047850956dba2d89fdade832ab8079de0d9ad46775b1efca66093d8b142d3a09e8c58af325536fd4"%string;
  "2c3ccfe0ca80e92d6dede2e273d89cfa26195228264242f23f9b1eb162818444236bcad0de434aa4b7f91bb3cc71c8e9dc61d4bcb7ed1983ba24e46557f748f00f168f919c21a6fb49feabb5374ec9a6"%string;
  "5d9b8c3ae6bd8d9b5170dcce44d4d3bae7aec06380f758f541397caf659defc17fdfae7ee997d2c0caf71150bc1043b14529e28e42a42c3b4f4cd6dfcd974c820d6f98b02fd804c1dac29573a7ae565a"%string;
  "6cdc366a42dcc883ad42dc36a61e0904ae474f1c684508226ddf8dd172d844ef1ac47276097fadc2c411ab9dd8b3c80561aac1c964028d6e696b7d95ab21b23fe9b798f0c82890f60eea4ea0a93748e5"%string;
  "94843774982a2903a2f1255f9b759b4cf7a8d45ba8b55d0d0804575ad7bcd152e96cb896f3cf88e5cfdf617f4f91e73dd0d4ae959bbe8eed9a0528495ba04a28a87df132f5634d6963862a78035c7999"%string;
  "a4bd63ec0918acf01be93e6e880edb3ca4181ef884ae6ecd1585f71d1c8b7eb871a1fe97448e2c87a46e6b73706b9238655b098c216436700cde802c0d1f53696c991a64e40963adca1585a55181fb9a"%string;
  "948a4e81a8116676e7f69f041b470b1fc493873fbc2cca1ed9d6417f25f695f9d413ed99fb71c4194b2c4973db3df5f4a9bc438a0436408ad249c33dd8e51d59b735e991afde15c33dea5b13e105201c"%string;
  "c4f0170009ecb8d1171f9d83cc1fd5359a357aecd94917255fa20d3d54c51e349d8996d62bf4cf4a6123911d6ee9ec237a5275f386d7c93293fa7248b8196dcf68ce1b5a36b732b535c8d96beaecd4bb"%string;
  "9081e62f4a04c0f8fa9dd7d81a0e2e4c9796e7e43c1dcb13f34cd8e924d6a8d21402ad8c414e53c1ca3d901c5e4a71ef24753e72763a7bb10c988e5f877eaedbe47db4599849a381d419e195de0f11f4"%string;
  "66e4ffa4ed57886b36ca79b6291d8ce40d140541645b80e16ad9ec107b23698b811691fa6673891d72355dace47ec2aff7e507a2f704bea61ddd8f2c9da1d69dea0e5ea8abf16d56ca33d4da60df5596"%string;
  "aa042c81d7ce936ff899d416a9dbce46adc466c44905d1ff669a4f16a3d415de41b47ce7406665d666b91af4b27323ebcab210746653e36cb1db3fe520ce723836ffce1f769aecc509ec227e5f735fa3"%string;
  "e0e916b9991e74122a6e17ac44b49996ac7235b9c0a94bbd672c98db71bf0910401bc66bd41ed5a861528e24169542ccc9ab5474e4ff8331dc7c4868c02e05cdc5ba7bbda96555f89b6f47c5b3e236cd"%string;
  "ef5876cd7c37c52b135a1fdb2ec09cab7f77ecc6dbf1f5cc59b6a60a2ee8bb750bff89aee381c3eba57933fc330dc98be7158af2c1b0eec6dab0ebf4a2afa92d3eddc2f22bfdaede2db1d03932c9a930"%string;
  "683b71501eed5a9b558fc13ad2702bdbe40bc4ff4e83bfe8e031fd8b95c6420dab21fc35fd8875a3b65dc0388034b69d2fd484239e6ca7fa8c687cb28c9b3bed772b376202ac4cb1471148d1f3dcdef1"%string;
  "25fbf610599dceb53534051cd95013fe6b0c4ba60422f20ea492604db61bb3826a8c8cec801a6272da74c8347d3d91d3bbed45a89a1d8c9c6c12118ac8c43de947f4c63214fe96eab760e8dcc9282877"%string;
  "b525c7212f58882275fe5d404cdfa2140a1fdf46b44f876b81099ad819e9d3cdcbc55e8a827ea1f70f1c50f6c457821d3222d95af9f4bb32ca24e301910d74564bfebbafeaa18fe349cfb6dbc1027c4d"%string;
  "2369013533a55b0868e0b73f8842b962d37debc078032bfe0ef0626132f85c7651e4abffa0b46856dd1726722acfa7f6fd3131c2986f3f8161cb72363f0cb5e2dadb108565f99d7f02a101a5d63ec353"%string;
  "924ff994788779a1fd3eeb479a9a6cf4a3f7f6c47ab277a5b41837fb9fb23138ff95a0bda6c369e3be40bc1120b1911e6d2c9bb576713a629ad4b2f4bc2d0ad2019be6aa44c564ccf98b7bc63b0c6b7d"%string;
  "21c24e948b76032f2d053f82e06b04d583891a09d086a04f672092082a4ee0d42c5bca0d6a54bb1ff96506f74630930e2d4a0556879cd8f23b9c073e3883ce4e770674d30c961f4f423b69b49437ae46"%string;
  "6dc68933d526e3cdf8ff016c14dd8f53d91af6c638ec9f08f4722104f9259d2ef3aae86e998906ae8d2d3740f12097d512f4195a5842dff93399fb2e3cc5d3a9d3b9960cc7b1c2984224fb9b51a00e56"%string;
  "4b71b479a88afffaf7b5b705243361e0ad9841044b4e481309c4aa86dce572e5181d026dd8f2b88a820c8283c1a8b7b111dee7f41fc1cc5bff14c248340eab6ef75a664b6f2fbde7305ed08e42bb450c"%string;
  "dd3097b4179a520bbfe7b2afe839a3e561215d334da0990392f71ecc61d9c3af20aa1bf50d45d4fc850cbafc71285f6547eba851f0fb2c4e0be05bf261a787fbc7b9c0450724c6fb6bceb037b68de815"%string;
  "8deefc82207ed70e1b7a1147d913f5c668dff5c92d4f262b1273afbc64f742ef1295a978cc8a20f63107f32bddf93e25e5bcc8e2d8dced760781af9dbff3e85c93e606815bb37164880bed97b43362c2"%string;
  "fb084d040ec61144c6504aa6a563b458431b6d2a542b77f4d9967e9ff89a9967edc7f145be3d4074aeb65c4bea349dcbb2a3e156226b531b657a6c6a8110c2f8db84b1e81434b6a8d0a4bbc5f28f3eb3"%string;
  "2a24ec5f03e31cc01b8a3318a1263f09dd2494b5471017b5db10a62f0fcac3d4560d712f78de3c9522432bf10f2f11bd473717b206582afb1efdb4f0207ed4dab16eb45edcb5b9cf6636461dbe264c92"%string;
  "fd3d06fd690eede47ad6b6c1c5b17f100692a3a6b65bc246de2a01ac24769d6bff05301571d869f94584a8d84ab7d08a47ec0e449ab70b0781758faad3de5c17e5336cef672f6fc3d03a3cf9e3abf7ab"%string;
  "c56c027b5fc14d53b101e22865b695607d527e47d17b8bf0cce712bca1e6938946b51fc2b0f6c4edc8bdf6922bfe7f1264e75b230905e1b7d2f58972ff57dc08fb4b8997ef12d1be70bb8121b98cdedf"%string;
  "5f789c15faa7cf576b28a00fb099445ac9814c3f6e8420fd27b0a280d09962a319ad3c22c14c09e991da30aa6e7c4e2454a5206b8b3074a75652aad600d9052817a5fd68485a53c37c4ffb1c486106b7"%string;
  "760e0fb54958c2055433c2bec45ad635a75883329b724bfb6457f8a7889257b81aed46e7fc1524d469cb9239bb8eec2beffc82826cebfbc55d128b1305672123280bd59bd05264f6c75c6d962ee82847"%string;
  "8c43609f57b2dd00a7f3e8536218092317752ca535433f0d20d91331defaef366b71c1019bdc6f3c28130651bba93d7f03d6a6dc9e38823da2ee272f2d8cc5b501a58858fdcd888e2f84b954f7beb670"%string;
  "9a21d9cbd9dd64b2345617a7d9508ffa3cc1db5831f6aa3e432c19adb72ddac742ebd6cb6989cf695432d02bc6505299d83875cbf81fe8380e105f6fbb8e4e665e360eb660f590d7765b026eb2e966be"%string;
  "ed0ee80b38d2d72575bee797c6dd43641a1843dd1b56f050966dd99457bed1d7877c24cd287e218c5bf976435ae5436aa4f7d1f84f2f9a227c84faae270d6c72110815f3d280ebb844e85f8ed7ae633b"%string;
  "a132f4e9a5afba46dfb4df973ff9f72d3a0d57c436a10b746f893cc2bb75508a84e3a2050373013ab681ffc0f8abee51910c42b4f9f70c3b5501ed388c9b6e3c7d710a25a1a99313bf0def719753b05a"%string;
  "4fc45684d05c982132b0c052fb302ac893dd1db807c001a88747ede1f14c907acaa9c1fdc6446358fbf1417f12b01a36ba0df4ab519c67cd7c2bbad1013e296dbc999070c5d18c1ecf4d120e1d780ec7"%string;
  "c54a8291da99c8da9898595786423854c1485ca06dd41908ff24767f166f2961b2ee5f95bcb438ec315c54aec25bff493779dba0a29daebd995786aa2494ed463b23a591208f18df65a293b29414d72f"%string;
  "92a5554b0b2405f6d7efb2748002fe8b118a50b90842685c32a2f6b986e1b46efabbfb8cba79633271e079b233818fa4a8f498c3b0c99b2c6c914fa0e393059a268b8a9ef147965c6aeb6e4ab50e84e7"%string;
  "86f89f50ab702ce34e1d73dc1308333ad0a203c8aad6338a33c9f21f70c9acd350b326a62357e67450a27bae7369359eff82be2b0933888b1c2a72edad9bd0e32e93bdaa8d5a903b5e0dfae3311e12b7"%string;
  "0d195645c6d2ee28e8f0b8b864c9ac42a3ea50ad5cc5a3ea9b1996801813a332e33cdd5922ccad5d60e25ce5492d96fe916671786e5657f0d6b1f818e7f8348e27044dff8c4413c65e986f83d2e9283f"%string;
  "b94007ad705d92fdcc8e8caf4990da7b31ed890f7625c94781d431243fe171abd02008d203e4e8d55fec2cf1319453e5e1a18bd1ea80cb2fcc9041d100e46562eaecbefe17e4b5f5aaa60b02571a59eb"%string;
  "a40ed90c9b6930f83c1712e6ec85b079e78f1c770513538da155333c7ff633933be34ea01404da62b2a023cfef45f2d162a277c36e4dae9941c42f0f59e5977580c740caddc354ad7b03d44d35fd32dc"%string;
  "4079a71d59c78f7d41d573db111c0fce4a690a73cce4dbb01fbc18b5c83a47adb9b6c5188b7ddaaaf968f0bb68a177d9ca18d452f03043463111ddbb6e0aa549f05abc824a97b200f102cd571787a05b"%string;
  "192948fa6cc0768132dcdd43aa23879079e7b58af47c42b7c8c78d785af46e0482b026cac38ee3207f5fb14f92d699e75f130468058c44692970404a344d6389fd69e62965905f012ef5f22e50397357"%string;
  "17cc19da0278641f41e8ca08166f64bc9dbbf7075ad210526e4f8f47c2fe5907252fc8769b7f941f9e33624c99a050a65f54618ce4f4489771dd651b43a3a41c57a1e9fd7d20160b97fe1d9671a98982"%string;
  "2d482e7ad6864e687f822b42ca214800d011abe52ddbe23a414e9b2e0e97762ded34e5d7e6ac7488a5531ff6dc09b79c205c870d3b069571aeb8d566855327a446a6522a22a46c3fd17da95e98bb6741"%string;
  "1808979f4778e25bbe8d04240401244bb2797862a839be3617f0229c925abd0866f66a715f0f6ff87ba1e6d782e811dcd319853358c1076f7ae7086e88c43d4780ef9a5bb08d9b10cbcebc838c1008ee"%string;
  "cab83130c8ec0e7416a342ca50df721971c9464281a80d008b07ea9432f3475f0ec69cecb6e0eafbbf3c1327f1d2bdc7fdd2a17154801f0f8ec104a836c3ffc3b3a899cdba3a02dece6f0714c97c5f8a"%string;
  "1af8c6854597ab8256d90376509e2b3ce5dec3f216829e4601808fc8b153a987d96a5eac2ccc57b123d26605d5f16496936e41a6166cda5aa3ddfd2076e57392d04ac872217c32e868fa588b52fa1bc5"%string;
  "2030a0217bb6fa657c34c0b8b0b037d36910578d603561e66b9cd50ca6da553c37f240386d63f10feb690ffc4e8e31dad1934c5e996f570608a3339a0e4e8f423775d1024b6d24512b062a1cc883129d"%string;
  "50cfbbce7a6477070a208593e9009eebac74c7b2391f26cc554fb2599178303bcfd5f8bfba7cd567b2961e638d9093df5c78dfa01bb80d7505fe0d45a1be2af692d82ab0dc4075fb254b027c4eae4902"%string;
  "d9eb523e6054c7d5d1935899a37735a356b78fbcc94b36db09075c6f92b45e041050aee92f5f36aad840c6f0d6f901a5074112f92549c2054eefff1024e3d212ca913b4e4bb79a2d0ae1fd0b4a6e808e"%string;
  "289a1370587fe427bc24e6c3bfcef801742f33d670df6cf47c42184dac47a7128286a3db38f833f2906bb32b31e3530757dd3cfd650e83c553ba47fa10eb7c203f22a9faa33f92aa8881eec0b05353f1"%string;
  "c0fe395258ba77ca5c79d8748d5a2960b93079a9b28fab62840a2bf1a48f6ff00aa8b3acdb6d25fe61c09438023e6d9681fe6cc201fd9b48ec98614c15ba05527eb1a69f196bdfc014dbc2db4eeca924"%string;
  "0dfedde32451cbf77d0152be5ce0f9bb78a4b38184178021ab014972f5b17baabda711c53fe5ffadee9eb6d71644facb0214df717feaddd512b71bbd42314de3230d78fa23f6a1eeea9dced625f3151c"%string;
  "ea90995952c3058f819cfbf0dbc92bf25d9d1ff3de4f5c9b9db1a1e06b078821f83602474d96f1fc99d8326e9bb0c142ca1d7f836a686363c2a8c27ff503cbcb56a3e63bc8248b14f61237ba4a5c4111"%string;
  "6498ea812bd68cd133a3e1b39c1865dbae4fd075a17d6e61cb1d6833553c0a7fb86bc4ea43b22db315c53fbc2bf3d44406b8ea6b2a491f3526beb638aa77109e9b9ebbe4ff4f79ddbfcfbcf22a3720cb"%string;
  "c7e478412e9459185611164a95d30a13abd7e0ec82a532e33a10a77a98ffe5e983307e3e81339f38ddbd286ffb02215b5ed3ec11ac9439503c5a0eff837d0d1bdc095d4bb99e27c23ebaaf121375142e"%string;
  "d42b70219baa0f164985e7650fe577c93782e8977c8107a279386c01980d7613d2db03fa30698fa3abed504361a71428b8ef45dd759c0046fc4ae8b64aeb4ff9067f656d6a2916671d2af0aca2afb065"%string;
  "b975001f0b228bf02b74eed5d47dd2c995b6f85b05547da4a02592feed60161a7328aaea05145ab3bd1e85556ca3e0c09be81e717845f6b68f577d249d4c1296eaa99154b1c51e7d728caba4904171d4"%string;
  "a724f112b044222cdeaa47b5bdccefb5c06b17aa57070e0d43c1f4980fd5fbfcc34132b042c51a2d1f64eeb29f24cd81f5eaf5d59d676aa1b7d046a965cd9bb7e053be31dbcf3cfa85a193571b7cf370"%string;
  "57f385229417316d3bf5f489827b73378b18516c4a05115a9bd1f302d8f44fa5df6e471eb768f5b5fdd3ca63d9fb9eace8a367abeb2483f01b2a91a8b6e8cc569d32f5736ecd4624b0f75e3947b97cb1"%string;
  "49c268d181326f02d0e8e24b506f82eaef75824d6b5fee7af6996e6c71a2981183993846fa0d94978703480da312c440fc84d8a3a3af254f15a329eea84bea5f274ceb70f1de48c132190e8fe8dfd5ae"%string;
  "0c154c7b62b3a5e0bcdc4bae7bd0a317c9b07ff72764e01d034180cac7535cf6c779887a6c6c389105bd936026967192cd03925b9561f7d98b5f09c062203e5c33eedbf9fd80b167997b2413c08ed5a4"%string;
  "7af26a65a2c7842b2b2e18b03e7d80de3c2215eb24e1bc679d0c9e625f65dafbb24adcda2c90f24ef25fcf1146b3837e940f5fe69f9f1b161ea0b9a6a4abf43c7a8b33bddc0b3575a94a6826ab930d40"%string;
  "7fa466342252030fb2cb529f8482a1f5f6ca2370a15eae1ad8f1d46eef3b3ad6e473f794e1604f4f51e68512effda8fafc6fd5ff0b8f890f948298751d40f50da62d86bd40f0db6dc120da517da8a808"%string;
  "15dd3052cbc05a3ea76cd1dcd7f170fbd62a351d90ee1522f068f9e282c2fbdb7a2fcc04f00e3d66fc7630f94567d91c967cafe869904613a4ebea70c40d4f243b5bfc086ed487a8357ca30fa2a71614"%string;
  "0bbf525819e56f3f4c24138148267020bcceaafd2146df545b3a748157b8d399e85d8561a893ad01f05cb513ccb02dc2d2af69b35f91831ba39a94e85cc48450e633c5e5d8888d58f8e15929c41073a1"%string;
  "02d257a913c5e9c60c1db62c21247e7bbc00389870a30028aaf9c45c8130012fb1484bb6af784dcbfd48782b97eb496ff1a79091eadc7c2841c3075ae98153dcd363f7d7f2845c912caddbcd44df2d93"%string;
  "1fe9b6837f0d2f4bbf19ae6d434907d453c5791f62347cae5feea6d6b0088cfe39956e541f499fad880689ff21692fd2d77b85366919f1be1b278a87206aa84df885634f6f120da84d3a68cb8b57360e"%string;
  "1c1d969c83895dfeb15e48da9a4ed3ae25b32cc996a08bf657a7edfe6e33e6be726ad531144b0f1335540bd09144de103c95fb1dc38d471f2fcf94fd3e480d9ab7069eaabf96efd6a6c8c0c04e09fe9b"%string;
  "3208b0464a2618e3a71e831a1accff349527cc85804b536d7b87bb1f2a4a841576df8fe3101ce68e6e7c6f181424fa543506ab2ecf206f3296761ce06e43210782c428b83db0af8e820f232db3ff3865"%string;
  "8906e098e6344687ee63d00f8eb0e2067dd539b65df0b02bddc30b683ce66f1fe75cbeaba215d26919e38e82bcbcd0525c52a44b74c67f8142fc863c5ff2474087a807194cababe218d2848b2a17fefb"%string;
  "5ad39ec7ef87b6751f08a9b4a86c4cbe87e58016f628964c5f61f71823149492f192045f1aebc9e6fb364175b56a21e3156db1466b7c711e6bc477b91064ccc5eaaf3391d3e62fdecc7f16b377b3adf1"%string;
  "52bd6d6dafd44f36eed0b03b722ea0ac2c7de6e10f232c85c642e0e665fc792e98dd1843bcb1b070d19700a64f8115d2e217eeedabf822757dcd9dfbc148bfc849fe28afecb57d24a5afc2cb994b8a8c"%string;
  "25dcaaeac3943123a607757eefd919bfd8a78ac83d4b4bf91c5f6ca0457c7fc2e6ee8e57af5a43d1617f0d926a8bd147cb6ee871f0872a0e8c21bcb95f8b16c265339d0236a3392de7b5dea0adafea87"%string;
  "1e3305fd0c485448516e69901db02490e09ad778ce65dda7018edf02b275847844aba6c41cf57e30a84a03503c1b1123e0f7e6fff2c1aa9fdd46e7b46e693cc68a2abb20bcb94d353d0ed7d395d6b853"%string;
  "b8e12f92e42a7a2ce2cc777f0f39f52796def768415b6f9fad5ba5c45031f7deee3208c416171342436739b2ae6bc8ab7569878350ae29b7c0d3bcbd426c3bc66c954dbfcaa5f26b657d6bdf08e1497c"%string;
  "8bd002a15147c75b37e0cce420e51654843d8e7e07860adfa7e03ff858dbb877493003897c21658b481a0fde17214057030262bdcd079548611497f977a71dc0ee55f9a12d67e6fa2d4675af094e48bf"%string;
  "5024086da4d6521d1be648a060485c67335fb2f4f24d23a293b1938c62a9fa47c73405b6a19e1c7cd50dec3bedad73abffbeebf96fad87d24c1d6d6026d77b53fd57ca34ee9eb19de6d87b7fb82091b2"%string;
  "bc05739280c5b5ce5ee0f97ad9957929e96865278be83f7331bf6edd009cafbde35fbb45f30220e1e203c9c0e50194ee2336bc1ab293deb88ee25c7c9bf4920e3bb7372088e5ccdd990fd6a90c69b771"%string;
  "7246286ed786beb771b3603bd4faf5b06c6bae78ab435d19efd0473a6bb9f4ea5fe7b58194ba5b79dcb5d09a69c9d4c56043fbd0652641e3e010a2fb95d73cb84c999ddf1699a678c520830fa2fcb619"%string;
  "72fe5f693b77d058f5fc2c5409a01f7c520a295c2b4b0286e16f42f51fbb22e5e2a39b63f6fb81f2916145f2e5060d8776f0154244be810a54eb64a38dfb848e3aefbd9dc2efd3f5fce04002c4e67de6"%string;
  "07a45f9570f6bbf0165ab7a035896d4e21b6ecf28df5965dfe15e585e47ce0468065cd453b52af9ca932ae067e9ac5fb44d7526cdc5af608bbb21041b912d86aa99393793576b43168e769a1c31e7baf"%string;
  "0056173d86584f50fd2377067dde154b4a36ab4c7d372929def4e6f310763540819733fa26261ea89b927c549356b1a44b607759c549c073ee7190b269e28e88ae26da43d4921601d85552352224e1a3"%string;
  "1888345cdfff86ffa0c75eac47738fcaffe979e8c1562f3ffc2412d389928555b82b808b1599f4ff5c65fb65c415afa8de881e0c423916eeb2559ce54b6de31c754f69d804cf5f59346e6e36b0332816"%string;
  "2b8d8330b837c340d1ce08f2b02e03ae7fb4e833eaabddd7dbfc1b9c0208c367d024caf3f541e9f0543c74e502319a1038fc9077ec12ef6349b54a0747273dbc95cfbefff372d8f4b2a863de84ab3e4f"%string;
  "92461bc678db796ff0a53e795589e042f3fab5a95e4ac27e026755f0d09756a3d8d624609c35a3b0c4f5f718cd81a86c3ba4b3486489d90d3b1ff522cfbb2d0beaac1a6f37f5c518e63ee740e794eb43"%string;
  "042cf027141c2d47923fd946612e81e6045888ad3e3c811fb45b4d356aa67b5064c60dc2a742fa0eb7e5b574a31324be166b714839dcbc5c5b185e742565ff5eeb55b31d99569d279f2b18cab75027be"%string;
  "77b08a9c3230870b6c12a183cc31b1714a0634951f6205059f3fa3b2f7c7edcb042ea5fd4e6c3fecb355879335d8f6933d11adaf770ca0438f6bb00ff67c35f09fd11440b107ea3d8142645b70a13863"%string;
  "c28082e157fe935ef2292633b90826928b81d9a6214e0304a47e5d67996f256626b2830ba3f03d812e248da0808be07cc1480cfed188746244a3b756eea432d0cbd981faa873ff6472bf46c97f42ef65"%string;
  "4473a2c3f9b2537e84c1e0f80ee00e601adbe306a79ec8b649ca36bf84bcf04dad6bc664633b156806e88c99d28a511eb25c3b86ab80891ea0ce9e404e35e00161bfe14cf29319a5da363b94a1651307"%string;
  "237d592efbd6e730a049554fb608e84108c36c413e69a8eda71b7bf12cd57496ca46ef0309a2a1613a11b17b7e4d6a102d313aee9b88e71459d6aedbc1fcb23eec9c2d551f1bbdac33d5a397c278e2d2"%string;
  "e7d4b3afa50c339899911f3a7201428a8e467782c3c9018fc3c7613fadd90a486c826309db15b1f3fb695e205c5d20efcb570953e1539fa1f969be3d438f1b12cd62af0acc3d3d3709b0306a52c91c79"%string;
  "ddced055f755b94831351b6b5c40c8f092ab269b47812d4459847580a181a6eced4fe38e413b41d8b6d3c6f16c5c7d75ccd575005b1f436b06692a19d673a728024de2eaaf9d6ffb1542103f2321c35e"%string;
  "0e4ebcbd9cb4668d5b784bf56de7ed552e9bf6450729a3cba8a2748d4a58a54ce175f564f8d97803cecbeea3751785156429a0606b530c51fabf68aab132865d7a510601bfca817ffc970967787b305a"%string;
  "1dffcb9149a532f8c6a81bd1e9a49c24adc862cb8c564e11ad4a4a5fafbb3d606b7b931ec9119d0391b90f4a4684f67cd9339240ac970f4f4cc77155f368163950eea860ded9f4622344864d95bd59e3"%string;
  "e5e7b180ece45d73f4a9460bf01d2cae51f90188e7dcef2ab203550abd4fd827e1e4b53d44bd5e6e6050f3f191371567fd44288a9ae3d8b6d2942068b679d4210dd72624c871eaaddc9322bcd4c23c7a"%string;
  "b6a248b33dc69286d2f04f73632a083888dfe7a4c6f70ffb10bff4872a1ae4b1b3131a7742603c102c06d06ca4898c7105f23785e65fbe61fb5ec3614b5dc4e24b8e918cf63327fb45ab2f60bf58651d"%string;
  "e46f3ae9bdeaac5a3a9f399d822977bf289ad7aff758cc1d92c4149cff35ca7b9c75e3d192a155fcf44af95bba1070c9ce654fecbbe06eacfb8462973f11429a738966ef7d73a4dd10e03484d6c6224d"%string;
  "10a4266442a0eecca57e6502b4b161481c522e1bbee6d72de64ef8c234d876d9c8354d21ae9fcf5e5de92ac1eacf6111063d65ce9baaf0fa2ecbbf835469c6354db5b9ce60e58076f3b9c289adfac5ca"%string;
  "39ba43a2923e6b9cfe4c77a98a11a993540e4d74b4edf5c4e3137475ecec61562e40dbd796646611ec570bb0ca2c46bc795f01b173c066f43dace4f6c972f19b69bf73b26eff95ff73ca534961876554"%string;
  "dd7bdcbc58db477da60869fa83ae897a310a2f36d7c63a107a559d757f27cfed02d4ff92a64000a4d4b43a148107438f5fc60fc0763328da575b325ecf84c8afb0694615b88c5290a67a9c30a5d6bac1"%string;
  "2b59996b68612b7ac7d1e4a9721b2395e0add7a09a0fe7d3c8709756d1210e009083991e6529aacf14f7d8597a5db435f616ddee4c5e824a17fd0d44fc3118a828e1fb16f39037fba9d28ab98464437e"%string;
  "d04b5f5119cd0b74e1a7f96b3ddd789474030db3470ac8090595a5be34bf189f5b135ddd742a3a644f814f1eea9f39defbc4127d8a208f682adbaccbdaba90d7ca52bbf65e3ac757489c789e8d00cd02"%string;
  "94737ddebeb41a844683365ab0f0fe005efe1c1b2ce4f64878d5dba65b85923d13ef4caf5355d8f5edc028522632cc26b10570e1ac2f07643da0bce8d72e084dc0f32f66de8bebb113cf8ba91a7aae6b"%string;
  "76a567fe84c4220fd5e99c14f5aec8763529f4274991403f053213f7fea09cffdad8d565a73b651c41bd2aca1ad8eb13824f014d2f2a893b34ab88e11a2e0c7da47cdefd3512ce740a4ee7bc226aa00e"%string;
  "774ccd4650e0148888ea33a8e3b2917723fc4570ae93f085d1711c046926e95fc2bf69b30117965dca2543f2b7511016dd4f2ee7e7fa3311a03c2b2f27a68cac27729b557874ff3b93380d92697c4405"%string;
  "79e558ddb750e712baa3bda79fd5963d80048dd8bcb175a80c1cf1e8a84d04aeddf0e84fe2feb1d1ba27443668ed716dce03ac3756c8df20aa8db5e82703df45bd624374be745657cc470767d3c24cf2"%string;
  "87f8134cf5cf45129a3eb95907afc2a34da1c69fecf5338d562f6e6102f17811846471dd5c2567b299618a00809f0d36bc3cdd6b7e48cf3e8a2fde855f7624286ffe7a3eb6c5a5a4e7eca8238ef4200c"%string;
  "dddf2d6dfa3278fd8f026ba90ab5dacd14d5c757b6513f0444f057868bd11fe29d0052e8a93f7018957e20feee2ee9e6bd33c953bc21a7c323d7098e57195739c1a6d64261a11b8422ead39c5e201cab"%string;
  "5709ee51aefab67f48d3d395f09fa8907c57d1aac879a8f2c47a4a9a032bab0e369bbe45ddec1267c431a8470e407919b6325c3250ac449a9e1fa72c822e136c325db6fc1dbbdf3398e1ea8daccce371"%string;
  "4098e9eff050a4611977db7847768cec35836d4fd515433ea6bed29be6f6054320ef274ac8dbad7094238f1064b1e055a6c193033b0dbd1973d40aeb4d49c97b7560567d2ea51609085036caf3ef0398"%string;
  "b2c331479a699e0b3e8ad20ea983ce6a146430cba93d2231d6a45d5968b4118155a2a0f2aec94ba7f62e7b4e38c1c909200922d3a2ae509f8649ca1b9483637ee91c68d9631cc1c8582206a95fef05a0"%string;
  "aab621876b5d378f71f3c8467e19ea178c4062a2c3b3d1040c0b4f1b6dce373b4e6160b0c93dc98a250b57655ad29171f5eff0035c1c336d139c976f4828db116154f766d8d5bf47a4fa4465b7871971"%string;
  "829d96449e2c48f582b6ba957003ebc24b966ca43b72e2f5b3f4cb565e70d8c62270c6b8c5b4500cd23a19b37749f377644ba5748c5863842580da9f251e66096edb22964111b2a54c41a046d84faee9"%string;
  "d638b80e62630bcc6e80da2af3d563ee8c313c49d68d86673de77204e86939b09a0c269f967cfecb0382c8e87adc41330801844f1a0e9a3572f698c102bf904d8eaa3a3b150a3ee600d0cf69e6491352"%string;
  "c1bf4b0c2cd1605d6c2b890efe5e33dc91bf939f52531f5cd6c92c8f2e05ca459bd442da5faeae4b4bb071039c0f319b8dcd3b0f987b2d476944a6b1d4064e600decc8a7096e3b071cf0a1191e0b0dc4"%string;
  "124a097aa0fb38046f071edf94790706d499c8438412517b08d042b01fd2cce3e9442b21bace2b3961bbf9dcc9ed0760c969763f6e7b2fefb4e8f2e05d333453a88c51c3a3768a8baef76db96c1a64ba"%string;
  "1a0447d842baa2649cfb05565d290b32ae0ee88301510903b7cee57a48793aff3eefe38bb058f2c7ac367ef0bbc6380f0b39d9977c38a09e79104771c671d050fd6a1f4cabe28a51fe4cb5fbf1db298e"%string;
  "b6ea34346dc60f2f58014a802750ef483c07c04e712855f0a0d2a29a4ad4f4c7c861592a8b3d305700379886bcb85af368e8edb1e39229c89f770412f2ef2fed30b136e8668c742e2ddd1cc90fd88e8f"%string;
  "39f055c3a983f814624390341536f65b5e944700ba8981b69174aaae5cb427980d7dabbd06e9826cdf78dae07e591aebc6e489ee7629fbedb784e95a5aeaab4b89b889355ed7cbd62651a705d7a4ac59"%string;
  "4d126729dc5370a0cae50c0720045e342a3e96f6350e3ad7007e0b5c740e31e7ecaa52e6f68116250cec937321f08b952eae871348fa327639a58d44cc2d01752b75aca821543b764fef1d0ca58e3c02"%string;
  "418006b526722fc8869279cb9e68ef3dd5c05cdc996ef6f971b1a71d70ffa3a66a314fc1b4f701deb2ea3b81507b5fea58cd32d8ae2b6cbc70429df709b54e11187364ad2e3ff8e050d3b97185c75437"%string;
  "e18a10a21f7bec022098ad1c2b61c35f0d9a57c1eabaaea6f4020fa455787b07ad619d0969193ebee045bdbc72851b28f6680898b851f3ee8a02bbdc21f5e2349d798b4aacddddd460530dc9f1f82709"%string;
  "90003250e163e6c8261f8f20d01243587e7a6517f32a5fe86cb6d988f074359eb6770b4629d55a93"%string].
Definition tears_tail : bytes := str "e8:url-listl31:https://webtorrent.io/torrents/ee".
Definition tears : bytes := tears_head ++ tears_pieces ++ tears_tail.
Example tears_size : zlen tears = 22894 /\ zlen tears_pieces = 21800.
Proof. vm_compute. split; reflexivity. Qed.
