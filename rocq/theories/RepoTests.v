(** The tests of /repo (git_test.go, unmarshal_test.go) whose data is at hand, run on the model.  Checks of
    the model against what the authors expect of the code, not proofs. *)
From Verif Require Import Base GoStr Cid Types Nodes Reader Bufio Person Assemble Decode Encode Spec Sha1 LinkSystem
  Inflate Zlib Quote GitObjects.

(** ** git_test.go:99-188, TestArchiveObjectParse, on the objects of testdata.tar.gz as git compressed them:
    name and file, in hexadecimal *)
Definition git_files : list (bytes * bytes) := [
  (bs "0a1690e0640a212aafed1824eb208ffddab1789b",
   bs "78012b294a4d5530366030343030333151483362986fdae575f7fda94d5376d83935ed7f2f3f4d75912700f5e80ecc");
  (bs "0faccf822badf55f15fb0c3f4122fa13798f769e",
   bs "78012b294a4d5530343266303100028594cc2286fabf228c5f671e674e79bbc4f0d2e4e407e69b4eeac0658d18a2bedc91e89cd7753292e5d5a72dab3f2e3a1527ca6e6860606662a29066c630d9bab4797b5935fb2b9f4f4e07f7698ae9edd8dd0a93cdcc496568d09c744489f7e1ac0965f5060ccb6719eeece5fd0e00533734b6");
  (bs "19f0805d8de36b6442e8c573074112ba72ad6780",
   bs "78014bcac94f523067282c4f2d2aa9e40200237904ad");
  (bs "42fd8d7404f5127314e248b2cbbe1423f12faeb9",
   bs "7801958d4b0ac23010405de714b317249f4eda0111176ef416c9644a2ba6232582c7375770f778f078acb5ae0d5cc443db45604e48990247162a79f22c3816213b44c9639884e6c096d09bf4698beef0d065839b0a9c9f9d8aca55bea9be5f7262ad1770e8d179241ae068bdb5a6dbfe6bf27f69eedbdacc0fcde73525");
  (bs "4b271beec86978454072b632f382c6ccb3938a45",
   bs "7801b590410ac23010455de714b372a348329d34098808ba72e3199a644215db9412c1e39ba20b2fe0eef3fef086999087e15600ad5b959919924634c1c7069d69383899c826d464b84dacda60a577e8a3165337f3588030451b0d494a5aa169143192f518bc6745d82485a963ef44f72c7d9ee192fb11ce9961fd89d7d2f30cfb7bc531f3915fdd303d7817f2b08505e6a5ffc507501aeb2aed1cc146a294a20ed71b4af5fcc32e4edf178937294f5d18");
  (bs "4d5e7ac145aaf440600dd06a97e8cc65f8acd4dc",
   bs "78019d90db4ac3401086bddea7987b51369b3d05446c6908152ca5d507d8c36cdad2644bb229f6ed4daade79a1ced5cf1cbef9675c6c9a7d0291f39bd421420818442ea895412bc99c934c314b991058481da682500a3d39990edb04dc32955944a765a134179c8eed326721d7cc49e76c5ee4da70f1ddafb551ace0ca6bcb033556655ae4bac0e0bc17de38e492e748393143dac50e9ee3ae85454478388cca477cc277d39c8e78ef62f30899602263a22838dc52462919b3e33d09ff3ed96057633235447b4097e0d74e215d4e089f8b094c8473d6efebabacff6104086c638330325af470c6aedfc796c0dd14f3b25aae605dad61bbac56b3d7b74d79cd1358c5b441733c5e6673d3a3e4db71dca4a14302f3212d535fc5e8cb360ef5ee8b55ae163f91c8cbf489af43c80745a1a1b7");
  (bs "5af4dc18899e8ac95904eaf2b4abf1a2ca5e1507",
   bs "78012b294a4d5530366030343030333151483366f8d370eb93f49696f357b4aebcf515bfe591dc38f3150005651032");
  (bs "70a3540bd51658ab564806785d5516a4e89b6450",
   bs "7801958ecb4a043110003de72bfa2e2b9d4c3a93802c7bd0835e3cf805bdfd70579cc93244f0f31d3fc15b515050d297e53a204de56e6c6680ce225e533ab33a9147f233cae439a6e41ca7b9559f4bb370e3cdd60159c966969889d973c682a88a85db6c55a4905716cd2a81bfc7a56ff0da2f2b3c7583c7cf9db4dbc97e78b97dd983f4e5089112c544ad65b8c7841876bbff0dfb7f69ab74bdae1ff0f2fe76a895da2186f0fc274dc32f83264a79");
  (bs "7ffd1401f599c70364eda431d29363e037b2c92c",
   bs "78012b294a4d55b034663034303033315148336490fcd010dbfb383bc5e9c5d1627647a15d456bd31b60b2260c0b3ee42c3ebbf1d9f36fcc957e1fcfce9f91fe2334d0c40008148a4b9352328b18b8c4263c48e152d45aff5642e5b542ffdf5b1b2b6603009bd52944");
  (bs "802992c4220de19a90767f3000a79a31b98d0df7",
   bs "78014bcac94f52303462f048cdc9c95728cf2fca49e1020042910669");
  (bs "832b4a8497de78248f70c06e0f06e785a74fea4c",
   bs "78012b294a4d553033663034303033315148336490fcd010dbfb383bc5e9c5d1627647a15d456bd31b4c0c8040a1b8342925b388814b6cc283142e45adf56f25545e2bf4ffbdb5b16236005fe21ab4");
  (bs "88a72947d8b4f0ab7185389efcdd5dace4643e04",
   bs "7801958ec10a022114455bfb15ee83d0a7efa910d1a255cbfe409d2753e4384c067d7ef609ed2ef7dc0337b75aef5d82a65ddf9865295cd0a04a54bc23c899c0415280c8817cf901748e27b1c68d972e6d02a71373f6149cb768d5989381623c64ca3999607cb428e2bbcf6d93d7362ff2d2581e1f234d8dcffc89757df221b77a921a0135600856ee152825463bfe75fedf14377e727cb1f802b0a642d9");
  (bs "933b7583b7767b07ea4cf242c1be29162eb8bb85",
   bs "78014bcac94f523063484b4f2ecae102001dab040e");
  (bs "9f358a4addefcab294b83e4282bfef1f9625a249",
   bs "78014bcac94f523067303432363135e302001ce60336");
  (bs "a0f06ca3cdb1e6e7f603794ef1cd9f9867f85551",
   bs "78014bcac94f523067b02ecccaae48e2020021b6045c");
  (bs "b1c46e7c32ff56e56a3da52be375348a664650ba",
   bs "789c958e4d4bc43014455de757bcbd382469d20f1171ca945217659851f76f9297b6d226a54d41ffbd3a6edd7857970be7704d98a62142a2b29bb8100177688ccba5bca0755a3ba1dd859bc42921a543916445eeb2b42036e3423e82b29a3234426944a7144f39b796a75864941b936a97a3b1ca1a865becc302cfa1f77008040fefdfcd067aa20f9ce69176264c8f20b4d442eaa25070cb25e7cc5cff45fa3fd9cddd3a7470f793b2aa9b168ef511ce4dddee5f5e4fd57567f046cb3a047f0f7c277692018336c413e1387eee4b5c2955e7a1f318b78518945b6ce25a87602b1fb6ae67bff6aa3dfce966acf22658b2ec0ba3b269bb");
  (bs "cf461f783732a8aa5f7d8679e112bd4c876aa19b",
   bs "7801158c390ec2301000a9fd8aed91908f75624b085150d1f2021f9b900867a36045f07b4c35538ca6861194e90e1c674a159c0bbdf6d86717719021f6ca59e33c0d29679b4322ecd0904451bf2b41e252a62a6a7becea8f9136b8f373811b139ce76699e94a9f50d6179d5a7e0165b555da7a8f70945a4a211e5c0876dade132fe20760c62bd9");
  (bs "d52e70c9e34ac03cdf77f46aec388c2f9574bd93",
   bs "78011dcc310ec2300c4051e69cc23b02c56ed32412420c4cac9c200e6ea14aeb0a45086e4f61f97ad3af69006cba8df228b9426c1af62eacf19d67eb25b5b9a79632b250c48e84037370a67e16012ecaa6ae8717eefa47919f0779c245ef339c55e030aebaa99ce49da6a5c83eeb740474e4905c8c0eb696ac35e6aa93c0fff00529b42aeb");
  (bs "ed19ea7ea03ecd036c653b9c4cba16df71424a60",
   bs "789c6d8cc16a83401445bb9eaf78fbd0324e66e208a5241211bb90109b0f189d1763505fd06768febe9376dbbb3a5c38875d0b4ac72f545fb161b0d6c52ad1b1b7b53e4b57c791356b9be0b9f1de78d7a0dee8354a2df871436868183a161c1af768eeda27b538c1275d46d813c2fb359027dce2b71b6e3dbe05e30322a34ca44c9268584925a510150d082130a2873b4e7347a3787d2ecdf2a284437e80aac8cbddd7e998fdfea2243ea2ebfbc72e75336e741564c7cb84225db8e03927f2d9484b7bf90b65e5febfcc0ff71a4d0f");
  (bs "ee048050d16bc428c4faef1074b740866ad553bb",
   bs "789c958ec16a84301445bbce57bc7d6989315103a5746444a60b19663a1ff0e6e5452d6a4423b47fdf76baeda67775b9700e97c238f6115265efe2c20cd223912f94baa2f3c6f8c4f8aba4d4eb44298f499adbc2e7996531e3c25304ed0ce7488936885e6b9949e99cccd0e65c1065c617484e3b12b8c52e2cf01aba09f681e1e9fdbbb9c02ffc81e33cf02385f11912a34ca28cb51aeea59252d0ed5fe4ff93eddcae7d0b0f3f29abfad0c0b13ec2f95037bbb7cba9baed020434219e1887e17357e2ca993ef7ed84715b5840b9c5435ceb105c3585adedc4afad6af67fb944355170ecc4177db96538");
  (bs "f5227cbd32973ec90f48f2547e6fe16c80b92bd5",
   bs "78012b294a4d55b03466303100028594cc2286666daf96e9f72a54fa0b0ee4f1b33d6f5deeffca072e6bc410f5e58e44e7bcae93912caf3e6d59fd71d1a938517643030333131385b4cc9c548606cd494794781fce9a50566fc0b07c96e1ce5edeef00752127b0");
  (bs "fa59b93c6ce9db82ce57de9046eb738e9f3c0952",
   bs "78012b294a4d553036623034303033315148cbcc496568d09c744489f7e1ac0965f5060ccb6719eeece5fd0e00fc300e3f");
  (bs "fc80daf21bb484cfd42ad4ed4d17da48638199ea",
   bs "78014bcac94f52306750d7d12ba84ce302001e7f03d1");
  (bs "ffef5350b6f8762cc6272b0255e968f50b6577ed",
   bs "78012b294a4d55b03466303100028594cc2286fabf228c5f671e674e79bbc4f0d2e4e407e69b4eeac0658d18a2bedc91e89cd7753292e5d5a72dab3f2e3a1527ca6e6860606662a290969993cad0a039e98812efc35913caea0d1896cf32dcd9cbfb1d00ce7b28de")].

(** The whole file in one piece, the end of the text with its last byte. *)
Definition at_once (out : bytes) (e : err) : source := {| so_evs := [(out, Some e)]; so_term := e |}.
(** git_test.go:190-234, testNode *)
Definition test_node (n : node) : bool :=
  match n with
  | NBlob b => negb (length b =? 0)
  | NCommit c => match as_link (NLink (c_tree c)) with Ok _ => true | _ => false end
  | NTag t => existsb (beqb (t_type t)) [bs "commit"; bs "tree"; bs "blob"; bs "tag"]
  | NTree t => negb (length (tr_m t) =? 0)
  | _ => false
  end.
Definition archive_test (o : bytes * bytes) : bool :=
  match parse_compressed default_B (fun _ _ => 0) (fun _ _ => 0) at_once (mk (hex_bytes (snd o)) EEOF) with
  | Ok n =>
      test_node n &&
      match compute_link sha1 n with
      | Ok (LCid c) => beqb c (git_cid (hex_bytes (fst o)))
      | _ => false
      end
  | _ => false
  end.
Example archive_object_parse : forallb archive_test git_files = true.
Proof. vm_compute. reflexivity. Qed.
(** And the text of each file is the object of that name in GitObjects.v. *)
Example files_hold_the_objects :
  forallb (fun o => match zlib_run (mk (hex_bytes (snd o)) EEOF) with
                    | Ok (out, EEOF) => existsb (fun g => beqb (fst g) (fst o) && beqb (hex_bytes (snd g)) out) git_objects
                    | _ => false
                    end) git_files = true.
Proof. vm_compute. reflexivity. Qed.

(** ** git_test.go:236-404, TestParsePersonInfo *)
(** The line, what GitString gives, and the four fields. *)
Definition person_test (line git name email date timezone : bytes) : bool :=
  match parse_person line with
  | Ok p =>
      beqb (git_string p) git &&
      forallb (fun fv => match lookup_by_string (NPerson p) (fst fv) with
                         | Ok d => match as_string d with Ok ds => beqb ds (snd fv) | _ => false end
                         | _ => false
                         end)
        [(bs "name", name); (bs "email", email); (bs "date", date); (bs "timezone", timezone)]
  | _ => false
  end.
Example parse_person_info :
  person_test (bs "prefix Someone <some@one.somewhere> 123456 +0123")
    (bs "Someone <some@one.somewhere> 123456 +0123") (bs "Someone") (bs "some@one.somewhere") (bs "123456") (bs "+0123") = true /\
  person_test (bs "prefix So Me One <some@one.somewhere> 123456 +0123")
    (bs "So Me One <some@one.somewhere> 123456 +0123") (bs "So Me One") (bs "some@one.somewhere") (bs "123456") (bs "+0123") = true /\
  person_test (bs "prefix Some One & Other One <some@one.somewhere, other@one.elsewhere> 987654 +4321")
    (bs "Some One & Other One <some@one.somewhere, other@one.elsewhere> 987654 +4321") (bs "Some One & Other One") (bs "some@one.somewhere, other@one.elsewhere") (bs "987654") (bs "+4321") = true /\
  person_test (bs "prefix  <some@one.somewhere> 987654 +4321")
    (bs " <some@one.somewhere> 987654 +4321") (bs "") (bs "some@one.somewhere") (bs "987654") (bs "+4321") = true /\
  person_test (bs "prefix Someone  <some@one.somewhere> 987654 +4321")
    (bs "Someone  <some@one.somewhere> 987654 +4321") (bs "Someone ") (bs "some@one.somewhere") (bs "987654") (bs "+4321") = true /\
  person_test (bs "prefix Łukasz Magiera <magik6k@users.noreply.github.com> 1546187652 +0100")
    (bs "Łukasz Magiera <magik6k@users.noreply.github.com> 1546187652 +0100") (bs "Łukasz Magiera") (bs "magik6k@users.noreply.github.com") (bs "1546187652") (bs "+0100") = true /\
  person_test (bs "prefix Sameer <sameer@users.noreply.github.com> 1545162499 -0500")
    (bs "Sameer <sameer@users.noreply.github.com> 1545162499 -0500") (bs "Sameer") (bs "sameer@users.noreply.github.com") (bs "1545162499") (bs "-0500") = true /\
  person_test (bs "prefix Łukasz Magiera <magik6k@users.noreply.github.com> 1546187652 +0122")
    (bs "Łukasz Magiera <magik6k@users.noreply.github.com> 1546187652 +0122") (bs "Łukasz Magiera") (bs "magik6k@users.noreply.github.com") (bs "1546187652") (bs "+0122") = true /\
  person_test (bs "prefix Sameer <sameer@users.noreply.github.com> 1545162499 -0545")
    (bs "Sameer <sameer@users.noreply.github.com> 1545162499 -0545") (bs "Sameer") (bs "sameer@users.noreply.github.com") (bs "1545162499") (bs "-0545") = true /\
  map_res git_string (parse_person (bs "prefix Someone <some.one@some.where>")) = Ok (bs "Someone <some.one@some.where>").
Proof. repeat split; vm_compute; reflexivity. Qed.

(** ** unmarshal_test.go:11-39, TestUnmarshalError: ParseObject and Decode into the Any builder, and the others *)
Definition error_of (input : bytes) : list (res node) :=
  let s := mk input EEOF in
  parse_object (stream_ops default_B) s :: map (fun k => decode_into (stream_ops default_B) k s) [BAny; BTree; BCommit; BBlob; BTag].
Example unmarshal_error :
  Forall (eq (Err EUnexpectedEOF)) (error_of (bs "")) /\
  Forall (eq (Err (EUnknownType []))) (error_of (bs "  ")) /\
  Forall (eq (Err EUnexpectedEOF)) (error_of (bs "foo")) /\
  Forall (eq (Err (EUnknownType (bs "foo")))) (error_of (bs "foo ")).
Proof. repeat split; repeat constructor. Qed.
(** The texts they look for. *)
Example unmarshal_texts : forall printable,
  message printable EUnexpectedEOF = Some (bs "unexpected EOF") /\
  message printable (EUnknownType []) = Some (bs "unrecognized object type: """"") /\
  message printable (EUnknownType (bs "foo")) = Some (bs "unrecognized object type: " ++ quote printable (bs "foo")).
Proof. intros printable. repeat split. Qed.
