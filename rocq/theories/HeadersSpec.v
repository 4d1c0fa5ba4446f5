(* The concrete headers, each with the members that the reading code sets beforehand. *)
From Verif Require Import Base BitProg FieldsModel FieldsSpec BundleModel BundleSpec HeadersModel.

Definition headers : list (list Z * prog) :=
  [ ([], SizeHeader 0 0); ([], PreviewHeader 0 0); ([], AnimationHeader 0 0);
    ([], BitDepth 0 0); ([], ExtraChannelInfo 0 0); ([], ToneMapping 0 0);
    ([], OpsinInverseMatrix 0 0); ([0], CustomTransformData 0 0);
    ([31], LoopFilter 0 0);
    ([4; 5], BlendingInfo 0 0); ([2; 3], AnimationFrame 0 0); ([], Passes 0 0);
    ([], YCbCrChromaSubsampling 0 0); ([], QuantizerParams 0 0); ([], LZ77Params 0 0);
    ([], WPHeader 0 0); ([], SqueezeParams 0 0); ([], Transform 0 0); ([], GroupHeader 0 0) ].
