-Q theories Verif

theories/Base.v
theories/FileModel.v
theories/FileSpec.v
theories/FileProofs.v
theories/PropFile.v
theories/DocModel.v
theories/DocSpec.v
theories/DocProofs.v
theories/DocInv.v
theories/PropDoc.v
theories/StrSpec.v
theories/StrModel.v
theories/PropStr.v
theories/Crypto.v
theories/SecSpec.v
theories/SecModel.v
theories/PropSec.v
theories/StreamSpec.v
theories/StreamModel.v
theories/PropStream.v
theories/PropForm.v
theories/SplitModel.v
theories/PropSplit.v
theories/TtfModel.v
theories/TtfSpec.v
theories/TtfProofs.v
theories/SubsetModel.v
theories/PropTtf.v
theories/PropChars.v
theories/PropSubset.v
theories/FontOutModel.v
theories/FontOutSpec.v
theories/FontOutProofs.v
theories/FontOutFile.v
theories/PropFont.v
theories/NumModel.v
theories/UnitModel.v
theories/PropUnit.v
theories/DrawModel.v
theories/DrawSpec.v
theories/DrawLex.v
theories/DrawNest.v
theories/PropDraw.v
theories/NumRead.v
theories/PropColour.v
theories/DrawView.v
theories/PropText.v
theories/PropWidth.v
theories/PropAlign.v
theories/TrModel.v
theories/PropTransp.v
theories/PropImage.v
theories/OutlineModel.v
theories/PropOutline.v
theories/PropSetPage.v
theories/PropPages.v
theories/RectModel.v
theories/PropRect.v
theories/PngModel.v
theories/PropPng.v
theories/ArabicModel.v
theories/PropArabic.v
theories/TableModel.v
theories/PropTable.v
theories/PlaceModel.v
theories/PropPlace.v
theories/ContainerModel.v
theories/PropContainer.v
theories/PaintSpec.v
theories/PropPaint.v
theories/DecoSpec.v
theories/PropDeco.v
theories/PaintNum.v
theories/ImgModel.v
theories/PropImagePlace.v
theories/PropMaskPlace.v
theories/PdfSyntax.v
theories/PdfRead.v
theories/ObjModel.v
theories/PropObj.v
theories/PropObj2.v
theories/PropObj3.v
theories/RefModel.v
theories/PropRef.v
theories/PropRef2.v
theories/PropDate.v
theories/PropStream2.v
theories/PropName.v
theories/PropName2.v
theories/MultiModel.v
theories/PropMulti.v
theories/HolderModel.v
theories/PropHolder.v
theories/ImportModel.v
theories/PropImport.v
theories/PoolModel.v
theories/PropPool.v
theories/FloatReal.v
theories/PropDesign.v
theories/PropRectF.v
theories/PropUnitF.v
theories/PropSecStr.v
theories/ArgModel.v
theories/PropArg.v
theories/PageModel.v
theories/PropPage.v
theories/PaperModel.v
theories/PropPaper.v
theories/FloatApx.v
theories/PropDrawF.v
theories/PropImagePlaceF.v
theories/PropAlignF.v
theories/PropDecoF.v
theories/PropWidthF.v
theories/PropJustF.v
theories/CursorModel.v
theories/PropCursor.v
theories/AskModel.v
theories/PropAsk.v
theories/PropForce.v
theories/OpenSpec.v
theories/PropOnePage.v
theories/PropOpen.v
theories/PropPages2.v
theories/PropMarks.v
theories/PropLinks.v
theories/OpenMarks.v
theories/PropOpen2.v
theories/FaceModel.v
theories/FaceSpec.v
theories/PropFace.v
theories/PropFaceF.v
theories/CopySpec.v
theories/PropCopy.v
theories/PropGlyph.v
theories/PropPages3.v
theories/PicSpec.v
theories/PropPic.v
theories/ImgParseModel.v
theories/JpegSpec.v
theories/PropPic2.v
