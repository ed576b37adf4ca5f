.lia.cache
*.vo
*.vos
*.vok
*.glob
*.aux
.Makefile.d
rocq/Makefile
rocq/Makefile.conf
.nia.cache
