-Q theories Verif

theories/Base.v
theories/LowerLaws.v
theories/Filenames.v
theories/FilenamesProofs.v
theories/PropFilenames.v
theories/PyVal.v
theories/Kerning.v
theories/KerningProofs.v
theories/PropKerning.v
theories/GlyphSet.v
theories/GlyphSetProofs.v
theories/NamesApart.v
theories/PropGlyphSet.v
theories/PyText.v
theories/Validators.v
theories/ValidatorsProofs.v
theories/PropValidators.v
theories/FontInfoTables.v
theories/FontInfo.v
theories/FontInfoProofs.v
theories/PropFontInfo.v
theories/PropFontInfoTypes.v
theories/FS.v
theories/FSProofs.v
theories/Ufo.v
theories/UfoProofs.v
theories/ToyCodec.v
theories/PropUfo.v
theories/PropUfoFiles.v
theories/PropLayers.v
theories/PointPen.v
theories/PropPointPen.v
theories/FloatRepr.v
theories/Xml.v
theories/Plist.v
theories/PlistProofs.v
theories/PropPlist.v
theories/Etree.v
theories/EtreeProofs.v
theories/PropEtree.v
theories/PlistFiles.v
theories/Glif.v
theories/GlifProofs.v
theories/GlifOutline.v
theories/GlifElements.v
theories/GlifRead.v
theories/GlifFiles.v
theories/GlifNotes.v
theories/GlifAccepted.v
theories/GlifAgain.v
theories/GlifFormat1.v
theories/GlifFetch.v
theories/PropGlif.v
theories/PropSession.v
theories/GlyphRefs.v
theories/PropGlyphRefs.v
theories/InfoFile.v
theories/PropInfoFile.v
theories/PropPlistShape.v
theories/Font.v
theories/FontProofs.v
theories/FontLayers.v
theories/FontData.v
theories/PropFont.v
theories/Zip.v
theories/ZipProofs.v
theories/PropZip.v
theories/FileObj.v
theories/PropFileObj.v
theories/GlyphDraw.v
theories/PropDrawing.v
theories/PropCmap.v
theories/XmlClean.v
theories/PropPlistLoaded.v
theories/PropGlifClean.v
theories/PropValidation.v
theories/PropFontInfoAccepts.v
theories/FontAccepts.v
theories/PropAccepts.v
theories/SaveAs.v
theories/PropSaveAs.v
theories/PropEditing.v
theories/PropInfoUpgrade.v
theories/PropUnsaved.v
theories/PropUpgrade.v
theories/PropGlifDocs.v
theories/GlifTexts.v
theories/PropGlifWriter.v
theories/PropFontInfo2.v
theories/PropReader.v
theories/PropOldGroups.v
theories/PropDowngrade.v
theories/PlistOptions.v
theories/PropPlistOptions.v
theories/PropInfoDowngrade.v
theories/PropGlifParts.v
theories/PropOldInfo.v
theories/PropWriterAccepts.v
theories/PropLayerCalls.v
theories/PropLayerOrder.v
theories/PropImages.v
theories/PropDataFiles.v
theories/PropTextFiles.v
theories/PropStores.v
