-Q theories Verif
theories/Outcome.v
theories/Floats.v
theories/Bits.v
theories/IndexArith.v
theories/Quantization.v
theories/Codecs.v
theories/Encoding.v
theories/Matrix.v
theories/Haar.v
theories/Stego.v
theories/Embedding.v
theories/Signature.v
theories/Process.v
theories/Image.v
theories/FloatFacts.v
theories/IndexArithProofs.v
theories/ListFacts.v
theories/CodecProofs.v
theories/WatermarkProofs.v
theories/PropsCodec.v
theories/EncodingProofs.v
theories/Toy.v
theories/PropsEncoding.v
theories/QuantProofs.v
theories/QuantReal.v
theories/QuantFloat.v
theories/PropsQuant.v
theories/PropsQuant2.v
theories/MatrixFacts.v
theories/StegoProofs.v
theories/StegoMarks.v
theories/PropsStego.v
theories/PropsStego2.v
theories/HaarProofs.v
theories/HaarReal.v
theories/HaarFloat.v
theories/PropsHaar.v
theories/EmbeddingProofs.v
theories/EmbeddingEffect.v
theories/PropsEmbedding.v
theories/PropsEmbedding2.v
theories/PropsRobust.v
theories/PropsHistory.v
theories/PropsInteger.v
theories/PropsClipping.v
theories/PropsEmbedding3.v
theories/Zernike.v
theories/ZernikeProofs.v
theories/PropsZernike.v
theories/ZernikeBound.v
theories/PropsZernike2.v
theories/ZernikeGen.v
theories/ZernikeGenProofs.v
theories/ZernikeF64.v
theories/PropsZernikeF64.v
theories/RelError.v
theories/LibmSpec.v
theories/LibmExact.v
theories/ZernikeAcc.v
theories/ZernikeAcc2.v
theories/ZernikeAcc3.v
theories/ZernikeAcc4.v
theories/ZernikeAcc5.v
theories/ZernikeAcc6.v
theories/PropsZernikeAcc.v
theories/ProcessProofs.v
theories/PropsProcess.v
theories/PropsProcess2.v
theories/PropsImage.v
theories/PropsProcess3.v
theories/PropsProcess4.v
theories/PropsProcess5.v
theories/PropsProcess6.v
theories/PropsInvisible.v
theories/Equalize.v
theories/EqualizeProofs.v
theories/PropsEqualize.v
theories/Random.v
theories/PropsTamper.v
theories/PropsProcess7.v
theories/PropsRandom.v
theories/Timer.v
theories/PropsTimer.v
theories/Web.v
theories/Front.v
theories/WebHeap.v
theories/PropsWeb.v
theories/PropsFront.v
theories/PropsPage.v
theories/PropsWebHeap.v
theories/PropsWebHeap2.v
theories/Cli.v
theories/PropsCli.v
theories/Getopts.v
theories/PropsCli2.v
theories/PropsCli3.v
theories/Console.v
theories/PropsConsole.v
theories/Utils.v
theories/PropsUtils.v
theories/PropsShipped.v
theories/PropsShipped2.v
theories/PropsClipping2.v
theories/PropsDepth.v
theories/PropsDepth2.v
theories/PropsTurn.v
theories/PropsTransplant.v
theories/PropsRepair.v
theories/PropsRepair2.v
theories/PropsHistory2.v
theories/Replay.v
theories/Diagnostics.v
theories/PropsDiagnostics.v
theories/PropsDiagnostics2.v
theories/PropsDiagnostics3.v
theories/Preview.v
theories/PropsPreview.v
theories/PropsDiagnostics4.v
theories/PropsBase64.v
theories/Interrupt.v
theories/PropsInterrupt.v
theories/WriterObject.v
theories/PropsWriter.v
theories/PropsVerdict.v
theories/PropsUnused.v
theories/PropsForged.v
theories/PropsMixed.v
theories/PropsSound.v
theories/PropsBits.v
theories/PropsBright.v
theories/PropsTiled.v
theories/PropsRejects.v
theories/PropsSame.v
theories/PowerMoment.v
theories/SpottedMoment.v
theories/PropsRejects2.v
theories/PropsBlockwise.v
theories/PropsBlend.v
theories/PropsThreshold.v
theories/PropsNegative.v
theories/PropsJpeg.v
theories/PropsFaint.v
theories/PropsHalftone.v
theories/PropsUnmarked.v
theories/PropsUseless.v
theories/PropsSteps.v
theories/PropsBarcode.v
theories/PropsLarge.v
theories/PropsContrast.v
theories/PropsReduced.v
